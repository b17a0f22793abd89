(** Property theorems C20: lazy definition of one container with several threads. *)
From Coq Require Import List Bool Arith Lia.
From Verif Require Import Util DeferModel DeferSpec DeferProofs.
Import ListNotations.

(** Two callbacks for the examples: one adds 7 and 8, the other adds 9 and then fails. *)
Definition two_defs (id : nat) : list bstep :=
  match id with 0 => [BAdd 7; BAdd 8] | 1 => [BAdd 9; BThrow; BAdd 10] | _ => [] end.

(** Whatever the schedule, the number of threads and the moments callbacks are set, no callback is entered twice. *)
Theorem C20_at_most_once : forall defs c its programs schedule,
  NoDup ((match c with Some d => [d] | None => [] end) ++ flat_map set_ids programs) ->
  NoDup (invoked (fst (exec defs (initial c its programs) schedule))).
Proof.
  intros defs c its ps sch H. destruct (once_always defs c its ps sch H) as [HN _].
  revert HN. generalize (avail (snd (exec defs (initial c its ps) sch))). intro l.
  induction (invoked _) as [|x a IH]; cbn; intro HN; [constructor|]. inversion HN as [|y b H1 H2]. subst.
  constructor; [|apply IH; exact H2]. intro HI. apply H1. apply in_app_iff. left; exact HI.
Qed.
Print Assumptions C20_at_most_once.

(** Non-trivial: a callback set later runs too, each once, although three threads query. *)
Example C20_at_most_once_ex : exists schedule,
  invoked (fst (exec two_defs (initial (Some 0) [] [[OQuery; OSet 1; OQuery]; [OQuery]; [OQuery; OQuery]]) schedule))
  = [0; 1] /\
  NoDup ([0] ++ flat_map set_ids [[OQuery; OSet 1; OQuery]; [OQuery]; [OQuery; OQuery]]).
Proof.
  exists (repeat 0 20 ++ repeat 1 20 ++ repeat 2 20). split; [vm_compute; reflexivity|].
  cbn. repeat constructor; cbn; intuition discriminate.
Qed.

(** Whatever the schedule, at most one thread is inside the definition. *)
Theorem C20_one_at_a_time : forall defs c its programs schedule i j t u,
  let w := exec defs (initial c its programs) schedule in
  nth_error (snd w) i = Some t -> nth_error (snd w) j = Some u -> defining t -> defining u -> i = j.
Proof. intros defs c its ps sch i j t u w. apply (proj2 (excl_always defs c its ps sch)). Qed.
Print Assumptions C20_one_at_a_time.

Example C20_one_at_a_time_ex : exists t u,
  let w := exec two_defs (initial (Some 0) [] [[OQuery]; [OQuery]]) [0; 1; 0; 1; 0] in
  nth_error (snd w) 0 = Some t /\ nth_error (snd w) 1 = Some u /\ defining t /\ ~ defining u /\ at_ u = Look Busy.
Proof. do 2 eexists. vm_compute. repeat split; tauto. Qed.

(** What queries see when every thread only queries: always a prefix of the definition (items never vanish, are
    never duplicated or reordered), and all of it unless the query met another thread in the middle of the
    definition. "All of it" stops at the callback's exception, if any. *)
Theorem C20_seen : forall defs d its programs schedule i t p s,
  only_queries programs ->
  nth_error (snd (exec defs (initial (Some d) its programs) schedule)) i = Some t -> In (p, s) (seen t) ->
  (exists q, s = its ++ q /\ prefix_of q (contributes (defs d))) /\
  (p <> Busy -> s = its ++ contributes (defs d)).
Proof.
  intros defs d its ps sch i t p s HQ Hi Hin.
  destruct (seen_always defs d its ps sch HQ) as [_ (g & _ & _ & HT)].
  destruct (HT i t Hi) as [_ [HF _]]. rewrite Forall_forall in HF. exact (HF _ Hin).
Qed.
Print Assumptions C20_seen.

Example C20_seen_ex : let w := exec two_defs (initial (Some 0) [] [[OQuery; OQuery]; [OQuery; OQuery]])
                                 ([0; 1; 0; 0; 0; 1; 1] ++ repeat 0 10 ++ repeat 1 10) in
  map seen (snd w) = [ [(Ran, [7; 8]); (Absent, [7; 8])]; [(Busy, [7]); (Absent, [7; 8])] ].
Proof. vm_compute. reflexivity. Qed.

(** The container itself holds at all times a prefix, and the definition was entered at most once. *)
Theorem C20_content : forall defs d its programs schedule,
  only_queries programs ->
  let s := fst (exec defs (initial (Some d) its programs) schedule) in
  (exists q, items s = its ++ q /\ prefix_of q (contributes (defs d))) /\
  (invoked s = [] \/ invoked s = [d]) /\
  (cb s = None -> items s = its ++ contributes (defs d)).
Proof.
  intros defs d its ps sch HQ s.
  destruct (seen_always defs d its ps sch HQ) as [_ (g & HW & _)]. fold s in HW.
  split; [eapply world_prefix; exact HW|].
  destruct g; cbn in HW; destruct HW as (H1 & H2 & H3); (split; [tauto|congruence || (intro; exact H3)]).
Qed.
Print Assumptions C20_content.

Example C20_content_ex : let s := fst (exec two_defs (initial (Some 0) [4] [[OQuery]; [OQuery]]) [0; 0; 0; 1; 0]) in
  items s = [4; 7] /\ invoked s = [0] /\ cb s = Some 0.
Proof. vm_compute. auto. Qed.

(** If the definition has run before the threads start (forceDeferredDefine or any earlier query on one thread),
    every query of every thread sees the whole container, nothing crashes, nothing races, nothing throws. *)
Theorem C20_forced_first : forall defs its programs schedule,
  only_queries programs ->
  let w := exec defs (initial None its programs) schedule in
  ~ crashed w /\ ~ racing w /\ items (fst w) = its /\
  forall i t, nth_error (snd w) i = Some t -> errors t = 0 /\ forall p s, In (p, s) (seen t) -> s = its.
Proof.
  intros defs its ps sch HQ w. destruct (settled_always defs its ps sch HQ) as (Hc & Hit & HT). fold w in Hc, Hit, HT.
  split; [|split; [|split; [exact Hit|]]].
  - intros (i & t & Hi & E). destruct (HT i t Hi) as ([Q|Q] & _); congruence.
  - intros (i & j & t & u & _ & Hi & _ & HW & _). destruct (HT i t Hi) as ([Q|Q] & _);
      unfold writes_ptr in HW; rewrite Q in HW; exact HW.
  - intros i t Hi. destruct (HT i t Hi) as (_ & HF & HE & _). split; [exact HE|].
    intros p s Hin. rewrite Forall_forall in HF. exact (HF _ Hin).
Qed.
Print Assumptions C20_forced_first.

Example C20_forced_first_ex : only_queries [[OQuery; OQuery]; [OQuery]] /\
  map seen (snd (exec two_defs (initial None [7; 8] [[OQuery; OQuery]; [OQuery]]) [0; 1; 1; 0; 0; 0]))
  = [[(Absent, [7; 8]); (Absent, [7; 8])]; [(Absent, [7; 8])]].
Proof.
  split; [|vm_compute; reflexivity]. intros l o [<-|[<-|[]]]; cbn; intro H;
  repeat (destruct H as [<-|H]); tauto.
Qed.

(** One thread alone never crashes, whatever it does, in whatever order it sets and queries. *)
Theorem C20_single_thread : forall defs c its program schedule,
  ~ crashed (exec defs (initial c its [program]) schedule).
Proof.
  intros defs c its p sch (i & t & Hi & E). destruct (solo_always defs c its p sch) as (u & Hu & H).
  rewrite Hu in Hi. destruct i as [|i]; [|destruct i; discriminate]. injection Hi as ->. rewrite E in H. exact H.
Qed.
Print Assumptions C20_single_thread.

Example C20_single_thread_ex :
  let w := exec two_defs (initial (Some 1) [] [[OQuery; OSet 0; OSet 1; OQuery; OQuery]]) (repeat 0 60) in
  map seen (snd w) = [[(Ran, [9; 7; 8]); (Absent, [9; 7; 8])]] /\ map errors (snd w) = [2].
Proof. vm_compute. auto. Qed.

(** Nobody waits: a thread which is scheduled often enough, however the others are scheduled, has finished all
    its operations or has crashed. *)
Theorem C20_bounded_work : forall defs M c its programs schedule i l,
  (forall id, length (defs id) <= M) -> nth_error programs i = Some l ->
  length l * (7 + M) < count_occ Nat.eq_dec schedule i ->
  exists t, nth_error (snd (exec defs (initial c its programs) schedule)) i = Some t /\
    (at_ t = Crashed \/ finished t).
Proof.
  intros defs M c its ps sch i l HM Hl Hn.
  destruct (work defs M HM sch (initial c its ps) i (fresh l)) as (u & Hu & [HS|HC]).
  - cbn. rewrite nth_error_map, Hl. reflexivity.
  - exists u. split; [exact Hu|exact HS].
  - exfalso. unfold cost in HC. cbn [fresh at_ todo] in HC. lia.
Qed.
Print Assumptions C20_bounded_work.

Example C20_bounded_work_ex : (forall id, length (two_defs id) <= 3) /\ nth_error [[OQuery]; [OQuery]] 1 = Some [OQuery] /\
  length [OQuery] * (7 + 3) < count_occ Nat.eq_dec (repeat 1 11) 1.
Proof. split; [intros [|[|id]]; cbn; lia|]. split; [reflexivity|cbn; lia]. Qed.

(** ** What does not hold *)

(** Two threads that merely query a lazily defined container can crash: the second passes the null check, the
    first completes the definition and resets the pointer, the second takes the lock and calls through null. *)
Theorem C20_no_crash_refuted : exists defs d programs schedule,
  only_queries programs /\ length programs = 2 /\ crashed (exec defs (initial (Some d) [] programs) schedule).
Proof.
  exists two_defs, 0, [[OQuery]; [OQuery]], ([1] ++ repeat 0 8 ++ [1; 1]). split; [|split; [reflexivity|]].
  - intros l o [<-|[<-|[]]] [<-|[]]; intros [].
  - exists 1. eexists. split; vm_compute; reflexivity.
Qed.
Print Assumptions C20_no_crash_refuted.

(** A thread can be given a partial definition: it finds the lock taken and does not wait. *)
Theorem C20_no_partial_refuted : exists defs d programs schedule t s,
  only_queries programs /\ nth_error (snd (exec defs (initial (Some d) [] programs) schedule)) 1 = Some t /\
  seen t = [(Busy, s)] /\ s = [7] /\ contributes (defs d) = [7; 8].
Proof.
  exists two_defs, 0, [[OQuery]; [OQuery]], [0; 0; 0; 0; 1; 1; 1]. do 2 eexists. split; [|repeat split].
  intros l o [<-|[<-|[]]] [<-|[]]; intros [].
Qed.
Print Assumptions C20_no_partial_refuted.

(** The null check reads the pointer while another thread resets it: a data race. *)
Theorem C20_no_race_refuted : exists defs d programs schedule,
  only_queries programs /\ racing (exec defs (initial (Some d) [] programs) schedule).
Proof.
  exists two_defs, 0, [[OQuery]; [OQuery]], (repeat 0 6). split; [intros l o [<-|[<-|[]]] [<-|[]]; intros []|].
  exists 0, 1. do 2 eexists. split; [discriminate|]. split; [vm_compute; reflexivity|].
  split; [vm_compute; reflexivity|]. split; [exact I|left; discriminate].
Qed.
Print Assumptions C20_no_race_refuted.

(** Two threads that set a lazy definition at the same time: one of the two definitions is lost without an error. *)
Theorem C20_set_not_lost_refuted : exists defs programs schedule,
  let w := exec defs (initial None [] programs) schedule in
  programs = [[OSet 0; OQuery]; [OSet 2; OQuery]] /\ map errors (snd w) = [0; 0] /\
  (forall i t, nth_error (snd w) i = Some t -> finished t) /\ invoked (fst w) = [2] /\
  map seen (snd w) = [[(Ran, [])]; [(Absent, [])]] /\ contributes (defs 0) = [7; 8].
Proof.
  exists two_defs, [[OSet 0; OQuery]; [OSet 2; OQuery]], ([0; 1; 0; 1] ++ repeat 0 8 ++ repeat 1 8).
  cbv zeta. split; [reflexivity|]. split; [reflexivity|]. split; [|repeat split].
  intros [|[|[|i]]] t; vm_compute; intro E; try discriminate; injection E as <-; repeat split.
Qed.
Print Assumptions C20_set_not_lost_refuted.

(** A callback that fails is dropped all the same: later queries answer from what it managed to add. *)
Theorem C20_failed_retried_refuted : exists defs d program schedule t,
  nth_error (snd (exec defs (initial (Some d) [] [program]) schedule)) 0 = Some t /\
  finished t /\ errors t = 1 /\ seen t = [(Absent, [9])] /\ In (BAdd 10) (defs d).
Proof.
  exists two_defs, 1, [OQuery; OQuery], (repeat 0 12). eexists. split; [vm_compute; reflexivity|]. vm_compute.
  repeat split. tauto.
Qed.
Print Assumptions C20_failed_retried_refuted.

(** Worse: the second setter can destroy the first callback while it runs. *)
Theorem C20_set_destroys_running_refuted : exists defs programs schedule,
  let w := exec defs (initial None [] programs) schedule in
  programs = [[OSet 0; OQuery]; [OSet 2]] /\ invoked (fst w) = [0] /\ items (fst w) = [7] /\ crashed w.
Proof.
  exists two_defs, [[OSet 0; OQuery]; [OSet 2]], ([1] ++ repeat 0 6 ++ [1; 0]).
  cbv zeta. split; [reflexivity|]. split; [reflexivity|]. split; [reflexivity|].
  exists 0. eexists. split; vm_compute; reflexivity.
Qed.
Print Assumptions C20_set_destroys_running_refuted.
