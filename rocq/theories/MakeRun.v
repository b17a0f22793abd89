(** Proofs for MakeProps: what holds all through the run of a careful client. *)
From Coq Require Import NArith List Bool Arith Lia.
From Verif Require Import TypesModel TypesSpec MakeModel MakeSpec MakeProofs.
Import ListNotations.

Section Run.
  Variable cls : base -> traits.
  Hypothesis trivially : forall b, trivial_default (cls b) = true -> trivial_destroy (cls b) = true.
  Variable ask : list qty.

  Lemma trivially_all t n r : consists cls t n r -> trivial_default r = true -> trivial_destroy r = true.
  Proof. induction 1; auto. Qed.

  (** *** Logs *)

  Lemma orderly_snoc l e : orderly cls ask l -> ~ In e l -> may_follow cls ask l e -> orderly cls ask (l ++ [e]).
  Proof.
    intros [O1 O2] N M. split.
    - clear - O1 N. induction l as [|a l IH]; cbn; [repeat constructor; auto|]. inversion O1; subst. constructor.
      + intro H. apply in_app_or in H. destruct H as [H|[H|[]]]; [contradiction|]. subst. apply N. left. reflexivity.
      + apply IH; auto. intro H. apply N. right. exact H.
    - intros l1 e' l2 E. destruct l2 as [|x l2 _] using rev_ind.
      + apply app_inj_tail in E. destruct E as [<- <-]. exact M.
      + rewrite app_comm_cons, app_assoc in E. apply app_inj_tail in E. destruct E as [E _]. exact (O2 _ _ _ E).
  Qed.

  Lemma orderly_built p : forall n i l, orderly cls ask l -> In (Allocated p) l -> ~ In (Freed p) l -> (forall j, ~ In (Ended p j) l) ->
    (forall j, i <= j -> ~ In (Built p j) l) -> orderly cls ask (l ++ map (Built p) (seq i n)).
  Proof.
    induction n as [|n IH]; intros i l O A F E B; cbn; [rewrite app_nil_r; exact O|].
    change (Built p i :: map (Built p) (seq (S i) n)) with ([Built p i] ++ map (Built p) (seq (S i) n)). rewrite app_assoc. apply IH.
    - apply orderly_snoc; auto. cbn. auto.
    - apply in_or_app. auto.
    - intro H. apply in_app_or in H. destruct H as [H|[H|[]]]; [auto|discriminate H].
    - intros j H. apply in_app_or in H. destruct H as [H|[H|[]]]; [exact (E _ H)|discriminate H].
    - intros j L H. apply in_app_or in H. destruct H as [H|[H|[]]]; [apply (B j); [lia|exact H]|injection H; lia].
  Qed.

  Lemma orderly_ended p : forall n i l, orderly cls ask l -> ~ In (Freed p) l -> (forall j, i <= j -> ~ In (Ended p j) l) ->
    (forall j, i <= j < i + n -> In (Built p j) l) -> orderly cls ask (l ++ map (Ended p) (seq i n)).
  Proof.
    induction n as [|n IH]; intros i l O F E B; cbn; [rewrite app_nil_r; exact O|].
    change (Ended p i :: map (Ended p) (seq (S i) n)) with ([Ended p i] ++ map (Ended p) (seq (S i) n)). rewrite app_assoc. apply IH.
    - apply orderly_snoc; [exact O|apply E; lia|]. cbn. split; [apply B; lia|exact F].
    - intro H. apply in_app_or in H. destruct H as [H|[H|[]]]; [auto|discriminate H].
    - intros j L H. apply in_app_or in H. destruct H as [H|[H|[]]]; [apply (E j); [lia|exact H]|injection H; lia].
    - intros j L. apply in_or_app. left. apply B. lia.
  Qed.

  Definition about (e : event) : nat := match e with Allocated p => p | Freed p => p | Built p _ => p | Ended p _ => p end.

  (** *** The invariant *)

  Record rep (w : world) (held : list (option nat)) (s : state) (k : nat) : Prop := {
    rep_held : length held = length w;
    rep_heap : length (heap s) = length w;
    rep_none : forall x, nth_error w x = Some None -> nth_error held x = Some None;
    rep_some : forall x u cs, nth_error w x = Some (Some (u, cs)) ->
      nth_error held x = Some (Some x) /\ (exists b, nth_error (heap s) x = Some (Some b) /\ Forall2 stored cs b) /\
      (exists q n r, nth_error ask x = Some q /\ q_ty q = u /\ consists cls u n r /\ length cs = n /\
         (trivial_destroy r = false -> forall i, i < n -> In (Built x i) (log s)) /\
         (forall i, In (Built x i) (log s) -> i < n)) /\
      In (Allocated x) (log s) /\ ~ In (Freed x) (log s) /\ (forall i, ~ In (Ended x i) (log s));
    rep_use : in_use (heap s) = alive w + k;
    rep_log : orderly cls ask (log s);
    rep_bound : forall e, In e (log s) -> about e < length w;
    rep_freed : forall p, nth_error (heap s) p = Some None -> In (Freed p) (log s)
  }.

  Lemma fresh_new w held s k n j : rep w held s k -> j <= n -> orderly cls ask (log s ++ Allocated (length w) :: map (Built (length w)) (seq 0 j)).
  Proof.
    intros R _. change (Allocated (length w) :: map (Built (length w)) (seq 0 j)) with ([Allocated (length w)] ++ map (Built (length w)) (seq 0 j)).
    assert (N : forall e, about e = length w -> ~ In e (log s)) by (intros e E H; apply (rep_bound _ _ _ _ R) in H; lia).
    rewrite app_assoc. apply orderly_built.
    - apply orderly_snoc; [apply R|apply N; reflexivity|exact I].
    - apply in_or_app. right. left. reflexivity.
    - intro H. apply in_app_or in H. destruct H as [H|[H|[]]]; [exact (N (Freed (length w)) eq_refl H)|discriminate H].
    - intros i H. apply in_app_or in H. destruct H as [H|[H|[]]]; [exact (N (Ended (length w) i) eq_refl H)|discriminate H].
    - intros i _ H. apply in_app_or in H. destruct H as [H|[H|[]]]; [exact (N (Built (length w) i) eq_refl H)|discriminate H].
  Qed.

  Lemma new_events w j e : In e (Allocated (length w) :: map (Built (length w)) (seq 0 j)) -> about e = length (w : world) /\
    (e = Allocated (length w) \/ exists i, i < j /\ e = Built (length w) i).
  Proof.
    intros [<-|H]; [cbn; auto|]. apply in_map_iff in H. destruct H as (i & <- & H). apply in_seq in H. cbn. split; [reflexivity|].
    right. exists i. split; [lia|reflexivity].
  Qed.

  (** The part of the invariant that says of an object that it goes on when others are added. *)
  Lemma rep_grow w held s k s' j ob v : rep w held s k -> heap s' = heap s ++ [Some ob] ->
    log s' = log s ++ Allocated (length w) :: map (Built (length w)) (seq 0 j) ->
    forall x u cs, nth_error w x = Some (Some (u, cs)) ->
      nth_error (held ++ [v]) x = Some (Some x) /\ (exists b, nth_error (heap s') x = Some (Some b) /\ Forall2 stored cs b) /\
      (exists q n r, nth_error ask x = Some q /\ q_ty q = u /\ consists cls u n r /\ length cs = n /\
         (trivial_destroy r = false -> forall i, i < n -> In (Built x i) (log s')) /\
         (forall i, In (Built x i) (log s') -> i < n)) /\
      In (Allocated x) (log s') /\ ~ In (Freed x) (log s') /\ (forall i, ~ In (Ended x i) (log s')).
  Proof.
    intros R Eh El x u cs E. destruct (rep_some _ _ _ _ R x u cs E) as (H1 & (b & H2 & H3) & (q & n & r & Q1 & Q2 & Q3 & Q4 & Q5 & Q6) & H4 & H5 & H6).
    assert (L : x < length w) by (apply nth_lt in E; exact E).
    assert (Out : forall e, about e = x -> In e (log s') -> In e (log s)).
    { intros e Ea H. rewrite El in H. apply in_app_or in H. destruct H as [H|H]; [exact H|]. apply new_events in H. lia. }
    split; [apply nth_app_l; exact H1|]. split; [exists b; split; [rewrite Eh; apply nth_app_l; exact H2|exact H3]|].
    split; [exists q, n, r; repeat (split; [assumption|])|].
    - split; [intros T i Hi; rewrite El; apply in_or_app; left; exact (Q5 T i Hi)|]. intros i Hi. apply Q6. exact (Out (Built x i) eq_refl Hi).
    - split; [rewrite El; apply in_or_app; left; exact H4|]. split; [intro H; exact (H5 (Out (Freed x) eq_refl H))|]. intros i H. exact (H6 i (Out (Ended x i) eq_refl H)).
  Qed.

  Lemma rep_new w held s k s' b q n r cs j : rep w held s k -> nth_error ask (length w) = Some q -> consists cls (q_ty q) n r ->
    Forall2 stored cs b -> length cs = n -> heap s' = heap s ++ [Some b] ->
    log s' = log s ++ Allocated (length w) :: map (Built (length w)) (seq 0 j) -> j = n \/ (j = 0 /\ trivial_destroy r = true) ->
    rep (w ++ [Some (q_ty q, cs)]) (held ++ [Some (length w)]) s' k.
  Proof.
    intros R Q C F Le Eh El J. split.
    - rewrite !app_length, (rep_held _ _ _ _ R). reflexivity.
    - rewrite Eh, !app_length, (rep_heap _ _ _ _ R). reflexivity.
    - intros x E. apply nth_app_last in E. destruct E as [E|[_ E]]; [|discriminate E]. apply nth_app_l. apply (rep_none _ _ _ _ R). exact E.
    - intros x u cs' E. apply nth_app_last in E. destruct E as [E|[-> E]]; [exact (rep_grow _ _ _ _ _ _ _ _ R Eh El x u cs' E)|].
      injection E as <- <-.
      assert (N : forall e, about e = length w -> ~ In e (log s)) by (intros e E H; apply (rep_bound _ _ _ _ R) in H; lia).
      assert (Ev : forall e, about e = length w -> In e (log s') -> e = Allocated (length w) \/ exists i, i < j /\ e = Built (length w) i).
      { intros e Ea H. rewrite El in H. apply in_app_or in H. destruct H as [H|H]; [exfalso; exact (N e Ea H)|]. apply new_events in H. tauto. }
      split; [rewrite <- (rep_held _ _ _ _ R); apply nth_last|].
      split; [exists b; split; [rewrite Eh, <- (rep_heap _ _ _ _ R); apply nth_last|exact F]|].
      split; [exists q, n, r; do 4 (split; [assumption||reflexivity|]); split|].
      + intros T i Hi. rewrite El. apply in_or_app. right. right. apply in_map. apply in_seq. destruct J as [->|[_ J]]; [lia|congruence].
      + intros i H. destruct (Ev (Built (length w) i) eq_refl H) as [H'|(i' & Hi & H')]; [discriminate H'|]. injection H' as ->. lia.
      + split; [rewrite El; apply in_or_app; right; left; reflexivity|]. split.
        * intro H. destruct (Ev (Freed (length w)) eq_refl H) as [H'|(i & _ & H')]; discriminate H'.
        * intros i H. destruct (Ev (Ended (length w) i) eq_refl H) as [H'|(i' & _ & H')]; discriminate H'.
    - rewrite Eh, in_use_app, alive_app, (rep_use _ _ _ _ R). cbn. lia.
    - rewrite El. exact (fresh_new _ _ _ _ j j R (le_n j)).
    - intros e H. rewrite app_length. cbn. rewrite El in H. apply in_app_or in H. destruct H as [H|H]; [apply (rep_bound _ _ _ _ R) in H; lia|].
      apply new_events in H. lia.
    - intros p H. rewrite Eh in H. apply nth_app_last in H. destruct H as [H|[_ H]]; [|discriminate H]. rewrite El. apply in_or_app. left. apply (rep_freed _ _ _ _ R). exact H.
  Qed.

  Lemma rep_threw w held s k s' b j : rep w held s k -> heap s' = heap s ++ [Some b] ->
    log s' = log s ++ Allocated (length w) :: map (Built (length w)) (seq 0 j) -> rep (w ++ [None]) (held ++ [None]) s' (S k).
  Proof.
    intros R Eh El. split.
    - rewrite !app_length, (rep_held _ _ _ _ R). reflexivity.
    - rewrite Eh, !app_length, (rep_heap _ _ _ _ R). reflexivity.
    - intros x E. apply nth_app_last in E. destruct E as [E|[-> _]]; [apply nth_app_l; apply (rep_none _ _ _ _ R); exact E|].
      rewrite <- (rep_held _ _ _ _ R). apply nth_last.
    - intros x u cs E. apply nth_app_last in E. destruct E as [E|[_ E]]; [|discriminate E]. exact (rep_grow _ _ _ _ _ _ _ _ R Eh El x u cs E).
    - rewrite Eh, in_use_app, alive_app, (rep_use _ _ _ _ R). cbn. lia.
    - rewrite El. exact (fresh_new _ _ _ _ j j R (le_n j)).
    - intros e H. rewrite app_length. cbn. rewrite El in H. apply in_app_or in H. destruct H as [H|H]; [apply (rep_bound _ _ _ _ R) in H; lia|].
      apply new_events in H. lia.
    - intros p H. rewrite Eh in H. apply nth_app_last in H. destruct H as [H|[_ H]]; [|discriminate H]. rewrite El. apply in_or_app. left. apply (rep_freed _ _ _ _ R). exact H.
  Qed.

  Lemma changed_length {A} (l : list A) i x : length (changed l i x) = length l.
  Proof. rewrite <- set_changed. apply set_length. Qed.

  Lemma rep_taken w held s k s' y u c : rep w held s k -> nth_error w y = Some (Some (u, [c])) ->
    heap s' = set (heap s) y (Some [Hollow]) -> log s' = log s -> rep (changed w y (Some (u, [Taken]))) held s' k.
  Proof.
    intros R E Eh El. assert (L : y < length w) by (apply nth_lt in E; exact E).
    destruct (rep_some _ _ _ _ R y _ _ E) as (H1 & (b & H2 & H3) & (q & n & r & Q1 & Q2 & Q3 & Q4 & Q5) & H4). split.
    - rewrite changed_length. apply R.
    - rewrite changed_length, Eh, set_length. apply R.
    - intros x H. rewrite <- set_changed, nth_set in H. destruct (Nat.eqb_spec x y) as [e|N]; [subst x|].
      + destruct (Nat.ltb_spec y (length w)); discriminate H.
      + apply (rep_none _ _ _ _ R). exact H.
    - intros x u' cs' H. rewrite <- set_changed, nth_set in H. rewrite El, Eh. destruct (Nat.eqb_spec x y) as [e|N]; [subst x|].
      + apply Nat.ltb_lt in L. rewrite L in H. injection H as <- <-. split; [exact H1|]. split; [|split; [exists q, n, r; auto|exact H4]].
        exists [Hollow]. split; [apply nth_set_same; apply nth_lt in H2; exact H2|]. constructor; [exact I|constructor].
      + rewrite nth_set_other by exact N. exact (rep_some _ _ _ _ R x u' cs' H).
    - rewrite Eh, (in_use_same _ _ _ _ H2), (alive_same _ _ _ _ E). apply R.
    - rewrite El. apply R.
    - rewrite El, changed_length. apply R.
    - intros p H. rewrite Eh, nth_set in H. rewrite El. destruct (p =? y); [destruct (p <? length (heap s)); discriminate H|]. apply (rep_freed _ _ _ _ R). exact H.
  Qed.

  Lemma rep_end w held s k s' y u cs n r : rep w held s k -> nth_error w y = Some (Some (u, cs)) -> consists cls u n r ->
    heap s' = set (heap s) y None -> log s' = log s ++ (if trivial_destroy r then [] else map (Ended y) (seq 0 n)) ++ [Freed y] ->
    rep (changed w y None) (set held y None) s' k.
  Proof.
    intros R E C Eh El. assert (L : y < length w) by (apply nth_lt in E; exact E).
    destruct (rep_some _ _ _ _ R y _ _ E) as (H1 & (b & H2 & H3) & (q & n' & r' & Q1 & Q2 & Q3 & Q4 & Q5 & Q6) & H4 & H5 & H6).
    destruct (consists_same _ _ _ _ _ _ C Q3) as [<- <-]. clear Q3.
    assert (Ev : forall e, In e (log s') -> In e (log s) \/ about e = y).
    { intros e H. rewrite El in H. apply in_app_or in H. destruct H as [H|H]; [auto|]. right. apply in_app_or in H.
      destruct H as [H|[<-|[]]]; [|reflexivity]. destruct (trivial_destroy r); [destruct H|]. apply in_map_iff in H. destruct H as (i & <- & _). reflexivity. }
    split.
    - rewrite changed_length, set_length. apply R.
    - rewrite changed_length, Eh, set_length. apply R.
    - intros x H. rewrite <- set_changed, nth_set in H. rewrite nth_set. rewrite (rep_held _ _ _ _ R). destruct (Nat.eqb_spec x y) as [e|N]; [subst x|].
      + destruct (Nat.ltb_spec y (length w)); [reflexivity|lia].
      + apply (rep_none _ _ _ _ R). exact H.
    - intros x u' cs' H. rewrite <- set_changed, nth_set in H. destruct (Nat.eqb_spec x y) as [e|N]; [subst x|].
      + destruct (y <? length w); discriminate H.
      + destruct (rep_some _ _ _ _ R x u' cs' H) as (K1 & K2 & (q' & n' & r' & P1 & P2 & P3 & P4 & P5 & P6) & K4 & K5 & K6).
        assert (Out : forall e, about e = x -> In e (log s') -> In e (log s)) by (intros e Ea He; destruct (Ev e He) as [He'|He']; [exact He'|congruence]).
        rewrite nth_set_other, Eh, nth_set_other by exact N. split; [exact K1|]. split; [exact K2|]. split; [exists q', n', r'; do 4 (split; [assumption|])|].
        * split; [intros T i Hi; rewrite El; apply in_or_app; left; exact (P5 T i Hi)|]. intros i Hi. apply P6. exact (Out (Built x i) eq_refl Hi).
        * split; [rewrite El; apply in_or_app; left; exact K4|]. split; [intro He; exact (K5 (Out (Freed x) eq_refl He))|]. intros i He. exact (K6 i (Out (Ended x i) eq_refl He)).
    - rewrite Eh. pose proof (in_use_none _ _ _ H2). pose proof (alive_none _ _ _ E). pose proof (rep_use _ _ _ _ R). lia.
    - rewrite El, app_assoc. apply orderly_snoc.
      + destruct (trivial_destroy r) eqn:T; [rewrite app_nil_r; apply R|]. apply orderly_ended; [apply R|exact H5|intros i _; apply H6|].
        intros i [_ Hi]. exact (Q5 eq_refl i Hi).
      + intro H. apply in_app_or in H. destruct H as [H|H]; [exact (H5 H)|]. destruct (trivial_destroy r); [destruct H|].
        apply in_map_iff in H. destruct H as (i & H & _). discriminate H.
      + cbn. split; [apply in_or_app; left; exact H4|]. intros i (q' & n' & r' & P1 & P2 & P3) H.
        rewrite Q1 in P1. injection P1 as <-. subst u. destruct (consists_same _ _ _ _ _ _ C P2) as [<- <-]. rewrite P3 in *.
        apply in_or_app. right. apply in_map. apply in_seq. apply in_app_or in H. destruct H as [H|H]; [split; [lia|]; cbn; exact (Q6 i H)|].
        apply in_map_iff in H. destruct H as (i' & H & _). discriminate H.
    - intros e H. rewrite changed_length. destruct (Ev e H) as [H'|H']; [exact (rep_bound _ _ _ _ R e H')|lia].
    - intros p H. rewrite Eh, nth_set in H. rewrite El. destruct (Nat.eqb_spec p y) as [e|N]; [subst p; do 2 (apply in_or_app; right); left; reflexivity|].
      apply in_or_app. left. apply (rep_freed _ _ _ _ R). exact H.
  Qed.

  (** *** One call *)

  Definition gave (c : call) : list qty := match c with Make q => [q] | Copy q _ => [q] | Move q _ => [q] | End_ _ _ => [] end.

  Lemma nth_of_error {A} (l : list A) x a d : nth_error l x = Some a -> nth x l d = a.
  Proof. revert x. induction l as [|b l IH]; intros [|x] H; cbn in *; try discriminate H; [congruence|auto]. Qed.

  Lemma step w held s k c : rep w held s k -> legal cls w c -> (forall q, In q (gave c) -> nth_error ask (length w) = Some q) ->
    exists held' a s' w', act cls c held s = Some (held', a, s') /\ acts cls w c a w' /\
      rep w' held' s' (k + thrown [(c, a)]) /\ length w' = length w + length (gave c).
  Proof.
    intros R Lg Q. destruct c as [q|q x|q x|q x]; cbn [act gave length].
    - destruct (consists_some cls (q_ty q)) as (n & r & C). specialize (Q q (or_introl eq_refl)).
      destruct (make_spec cls q n r s Lg C) as [[D (s' & b & E & H & F & L)]|[D (s' & b & j & E & H & L)]]; rewrite E; cbn [keep];
        rewrite (rep_heap _ _ _ _ R) in *.
      + eexists _, _, _, _. split; [reflexivity|]. split; [apply acts_make; eauto|]. cbn. rewrite Nat.add_0_r. split; [|rewrite app_length; reflexivity].
        destruct (trivial_default r) eqn:T.
        * eapply (rep_new _ _ _ _ _ _ _ _ _ _ 0); eauto using repeat_length. right. split; [reflexivity|exact (trivially_all _ _ _ C T)].
        * eapply (rep_new _ _ _ _ _ _ _ _ _ _ n); eauto using repeat_length.
      + eexists _, _, _, _. split; [reflexivity|]. split; [eapply acts_no_make; eauto|]. cbn. rewrite Nat.add_1_r. split; [|rewrite app_length; reflexivity].
        eapply rep_threw; eauto.
    - destruct Lg as (P & cs & (u & E & Si) & U & T). destruct (consists_some cls (q_ty q)) as (n & r & C). specialize (Q q (or_introl eq_refl)).
      destruct (rep_some _ _ _ _ R x u cs E) as (H1 & (b & H2 & H3) & (q' & n' & r' & Q1 & Q2 & Q3 & Q4 & _) & _).
      destruct (consists_same _ _ _ _ _ _ C (consists_similar cls _ _ _ _ Si Q3)) as [<- <-].
      rewrite (nth_of_error _ _ _ _ H1), (construct_room _ _ _ _ _ _ _ P C).
      destruct (copy_spec cls q n r s x cs b P C (fun A => T _ _ A C) H2 H3 U Q4) as [[D (s' & b' & E' & H & F & L)]|[D (s' & b' & j & E' & H & L)]];
        rewrite E'; cbn [keep]; rewrite (rep_heap _ _ _ _ R) in *.
      + eexists _, _, _, _. split; [reflexivity|]. split; [eapply acts_copy; eauto|]. cbn. rewrite Nat.add_0_r. split; [|rewrite app_length; reflexivity].
        eapply (rep_new _ _ _ _ _ _ _ _ _ _ n); eauto.
      + eexists _, _, _, _. split; [reflexivity|]. split; [eapply acts_no_copy; eauto|]. cbn. rewrite Nat.add_1_r. split; [|rewrite app_length; reflexivity].
        eapply rep_threw; eauto.
    - destruct Lg as (P & cs & (u & E & Si) & U & T). destruct (consists_some cls (q_ty q)) as (n & r & C). specialize (Q q (or_introl eq_refl)).
      destruct (rep_some _ _ _ _ R x u cs E) as (H1 & (b & H2 & H3) & (q' & n' & r' & Q1 & Q2 & Q3 & Q4 & _) & _).
      destruct (consists_same _ _ _ _ _ _ C (consists_similar cls _ _ _ _ Si Q3)) as [<- <-].
      rewrite (nth_of_error _ _ _ _ H1).
      assert (Plain : forall m, made q s m (heap s) cs (seq 0 n) -> exists s', keep held m = Some (held ++ [Some (length w)], Made, s') /\
                rep (w ++ [Some (q_ty q, cs)]) (held ++ [Some (length w)]) s' k).
      { intros m (s' & b' & -> & H & F & L). rewrite (rep_heap _ _ _ _ R) in *. exists s'. split; [reflexivity|].
        eapply (rep_new _ _ _ _ _ _ _ _ _ _ n); eauto. }
      destruct (move_spec cls q n r s x cs b P C (fun A => T _ _ A C) H2 H3 U Q4)
        as [(D & St & M)|[(D & St & NA & (s' & b' & E' & H & F & L))|[(D & D' & M)|(D & (s' & b' & j & E' & H & L))]]].
      + destruct (Plain _ M) as (s' & E' & R'). eexists _, _, _, _. split; [exact E'|]. split; [eapply acts_move; eauto|].
        cbn. rewrite Nat.add_0_r. split; [exact R'|rewrite app_length; reflexivity].
      + rewrite E'. cbn [keep]. rewrite (rep_heap _ _ _ _ R) in *. eexists _, _, _, _. split; [reflexivity|]. split; [eapply acts_steal; eauto|].
        cbn. rewrite Nat.add_0_r. split; [|rewrite app_length, changed_length; reflexivity].
        assert (Lx : x < length w) by (apply nth_lt in E; exact E).
        assert (n = 1) as ->. { apply (consists_one cls _ _ _ C). destruct (is_array (q_ty q)) eqn:A; [|reflexivity]. exfalso. apply NA. apply array_is. rewrite is_array_cv. exact A. }
        destruct cs as [|c0 [|c1 cs]]; try discriminate Q4.
        rewrite <- set_changed, <- set_app by exact Lx. rewrite set_changed.
        eapply (rep_taken _ _ (State (heap s ++ [Some b']) (coins s') (log s'))).
        * eapply (rep_new _ _ _ _ _ _ _ _ _ _ 1); eauto; reflexivity.
        * apply nth_app_l. exact E.
        * cbn [heap]. rewrite set_app by (apply nth_lt in H2; exact H2). exact H.
        * reflexivity.
      + destruct (Plain _ M) as (s' & E' & R'). eexists _, _, _, _. split; [exact E'|]. split; [eapply acts_move_copy; eauto|].
        cbn. rewrite Nat.add_0_r. split; [exact R'|rewrite app_length; reflexivity].
      + rewrite E'. cbn [keep]. rewrite (rep_heap _ _ _ _ R) in *. eexists _, _, _, _. split; [reflexivity|]. split; [eapply acts_no_move; eauto|].
        cbn. rewrite Nat.add_1_r. split; [|rewrite app_length; reflexivity]. eapply rep_threw; eauto.
    - destruct Lg as [E|(P & cs & u & E & Si)].
      + rewrite (nth_of_error _ _ _ _ (rep_none _ _ _ _ R x E)). cbn. eexists _, _, _, _. split; [reflexivity|]. split; [apply acts_end_none; exact E|].
        rewrite !Nat.add_0_r. split; [|reflexivity].
        assert (Es : set held x None = held).
        { pose proof (rep_none _ _ _ _ R x E) as H. clear - H. revert x H. induction held as [|a l IH]; intros [|x] H; cbn in *; try discriminate H; [congruence|].
          rewrite IH; auto. }
        rewrite Es. exact R.
      + destruct (rep_some _ _ _ _ R x u cs E) as (H1 & (b & H2 & H3) & (q' & n' & r' & Q1 & Q2 & Q3 & Q4 & _) & _).
        rewrite (nth_of_error _ _ _ _ H1). unfold destruct_. rewrite (proper_managed _ _ P).
        destruct (destroy_spec cls _ _ _ _ x cs b s Si Q3 Q4 H3 H2) as (s' & b' & E' & H & L). rewrite E'. cbn [bind]. unfold deallocate, block.
        assert (Hb : nth_error (heap s') x = Some (Some b')) by (rewrite H; apply nth_set_same; apply nth_lt in H2; exact H2). rewrite Hb.
        eexists _, _, _, _. split; [reflexivity|]. split; [eapply acts_end; eauto|]. cbn [thrown length]. rewrite !Nat.add_0_r, changed_length. split; [|reflexivity].
        eapply rep_end; [exact R|exact E|exact Q3| |].
        * cbn [put heap]. rewrite H, set_set. reflexivity.
        * cbn [put log]. rewrite L, <- app_assoc. reflexivity.
  Qed.
End Run.

Lemma thrown_cons x l : thrown (x :: l) = thrown [x] + thrown l.
Proof. destruct x as [c []]; reflexivity. Qed.

(** *** A whole client. The types asked for are those of the run, so a run is found before the invariant. *)
Lemma rep_ask cls ask ask' w held s k : rep cls ask w held s k -> firstn (length w) ask' = firstn (length w) ask ->
  (forall p, p < length w -> nth_error ask' p = nth_error ask p) -> rep cls ask' w held s k.
Proof.
  intros R _ Q. split; try apply R.
  - intros x u cs E. destruct (rep_some _ _ _ _ _ _ R x u cs E) as (H1 & H2 & (q & n & r & Q1 & Q2) & H4).
    split; [exact H1|]. split; [exact H2|]. split; [|exact H4]. exists q, n, r. split; [|exact Q2]. rewrite Q; [exact Q1|]. apply nth_lt in E. exact E.
  - destruct (rep_log _ _ _ _ _ _ R) as [O1 O2]. split; [exact O1|]. intros l1 e l2 E. specialize (O2 l1 e l2 E).
    destruct e as [p|p|p i|p i]; cbn in *; auto. destruct O2 as [O2 O3]. split; [exact O2|]. intros i (q & n & r & N1 & N2) B.
    apply O3; [|exact B]. exists q, n, r. split; [|exact N2]. rewrite <- Q; [exact N1|].
    apply (rep_bound _ _ _ _ _ _ R (Freed p)). rewrite E. apply in_or_app. right. left. reflexivity.
Qed.

Lemma run_careful cls (trivially : forall b, trivial_default (cls b) = true -> trivial_destroy (cls b) = true) m :
  forall w held s k pre, rep cls pre w held s k -> length pre = length w -> careful cls w m ->
  exists held' l s' w', run cls m held s = Some (held', l, s') /\ acts_all cls w l w' /\ rep cls (pre ++ asked l) w' held' s' (k + thrown l).
Proof.
  induction m as [|c kk IH]; intros w held s k pre R Lp Ca; cbn [run].
  - exists held, [], s, w. split; [reflexivity|]. split; [constructor|]. cbn. rewrite app_nil_r, Nat.add_0_r. exact R.
  - destruct Ca as [Lg Ca].
    assert (R1 : rep cls (pre ++ gave c) w held s k).
    { eapply rep_ask; [exact R| |].
      - rewrite firstn_app, Lp, Nat.sub_diag. cbn. rewrite app_nil_r. reflexivity.
      - intros p Hp. rewrite nth_error_app1; [reflexivity|lia]. }
    destruct (step cls trivially (pre ++ gave c) w held s k c R1 Lg) as (held' & a & s' & w' & E & A & R' & Lw).
    { intros q Hq. rewrite nth_error_app2, Lp, Nat.sub_diag by lia. destruct c; cbn in *; intuition congruence. }
    rewrite E. destruct (IH a w' held' s' _ (pre ++ gave c) R') as (h2 & l & s2 & w2 & E2 & A2 & R2).
    + rewrite app_length. lia.
    + exact (Ca a w' A).
    + rewrite E2. exists h2, ((c, a) :: l), s2, w2. split; [reflexivity|]. split; [econstructor; eauto|].
      rewrite thrown_cons, Nat.add_assoc. replace (pre ++ asked ((c, a) :: l)) with ((pre ++ gave c) ++ asked l); [exact R2|].
      rewrite <- app_assoc. reflexivity.
Qed.

Lemma rep_start cls c : rep cls [] [] [] (State [] c []) 0.
Proof.
  split; cbn; auto.
  - intros x E. destruct x; discriminate E.
  - intros x u cs E. destruct x; discriminate E.
  - split; [constructor|]. intros l1 e l2 E. destruct l1; discriminate E.
  - intros e [].
  - intros p E. destruct p; discriminate E.
Qed.

Lemma rep_mirrors cls ask w held s k : rep cls ask w held s k -> mirrors w held (heap s).
Proof.
  intro R. split; try apply R.
  - intros x u cs E. destruct (rep_some _ _ _ _ _ _ R x u cs E) as (H1 & (b & H2 & H3) & _). eauto.
  - assert (Own : forall x p, nth_error held x = Some (Some p) -> p = x).
    { intros x p H. destruct (nth_error w x) as [[[u cs]|]|] eqn:E.
      - destruct (rep_some _ _ _ _ _ _ R x u cs E) as (H1 & _). congruence.
      - pose proof (rep_none _ _ _ _ _ _ R x E). congruence.
      - apply nth_lt in H. apply nth_error_None in E. pose proof (rep_held _ _ _ _ _ _ R). lia. }
    intros x y p Hx Hy. rewrite <- (Own _ _ Hx), <- (Own _ _ Hy). reflexivity.
Qed.
