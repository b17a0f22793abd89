(** Lemmas for C20. *)
From Coq Require Import List Bool Arith Lia.
From Verif Require Import Util DeferModel DeferSpec.
Import ListNotations.

(** ** [put] *)
Lemma put_length {A} (l : list A) i x : length (put l i x) = length l.
Proof. revert i. induction l as [|y l IH]; intros [|i]; cbn; auto. Qed.

Lemma put_same {A} (l : list A) i x : i < length l -> nth_error (put l i x) i = Some x.
Proof.
  revert i. induction l as [|y l IH]; intros [|i] H; cbn in *; try lia; auto. apply IH; lia.
Qed.

Lemma put_other {A} (l : list A) i j x : i <> j -> nth_error (put l i x) j = nth_error l j.
Proof.
  revert i j. induction l as [|y l IH]; intros [|i] [|j] H; cbn; auto; try congruence.
Qed.

Lemma put_nth {A} (l : list A) i j x y : nth_error (put l i x) j = Some y ->
  (j = i /\ y = x) \/ (j <> i /\ nth_error l j = Some y).
Proof.
  intro H. destruct (Nat.eq_dec j i) as [->|N].
  - left. assert (i < length l). { rewrite <- (put_length l i x). apply nth_error_Some. congruence. }
    rewrite put_same in H by assumption. split; congruence.
  - right. rewrite put_other in H by congruence. split; assumption.
Qed.

(** An invariant of every turn holds after every schedule. *)
Lemma exec_inv defs (P : shared * list thread -> Prop) :
  (forall s ts i t, P (s, ts) -> nth_error ts i = Some t ->
     P (fst (step defs s t), put ts i (snd (step defs s t)))) ->
  forall sch c, P c -> P (exec defs c sch).
Proof.
  intro H. induction sch as [|i sch IH]; intros c HP; [exact HP|]. cbn. apply IH. unfold turn.
  destruct c as [s ts]. cbn [fst snd] in *.
  destruct (nth_error ts i) as [t|] eqn:E; [|exact HP].
  specialize (H s ts i t HP E). destruct (step defs s t) as [s' t']. exact H.
Qed.

Lemma nth_fresh ps i t : nth_error (map fresh ps) i = Some t -> exists l, In l ps /\ t = fresh l.
Proof.
  rewrite nth_error_map. destruct (nth_error ps i) as [l|] eqn:E; cbn; [|discriminate].
  intro H. injection H as <-. exists l. split; [eapply nth_error_In; eassumption|reflexivity].
Qed.

(** ** Mutual exclusion *)
Definition excl (c : shared * list thread) : Prop :=
  (forall i t, nth_error (snd c) i = Some t -> defining t -> lock (fst c) = true) /\
  (forall i j t u, nth_error (snd c) i = Some t -> nth_error (snd c) j = Some u ->
     defining t -> defining u -> i = j).

Lemma step_defining defs s t :
  defining (snd (step defs s t)) -> defining t \/ (at_ t = Exchange /\ lock s = false).
Proof.
  unfold step, defining. destruct (at_ t) eqn:Et; cbn; auto.
  - destruct (todo t) as [|[|id] r]; cbn; [rewrite Et|destruct (cb s)|destruct (cb s)]; cbn; tauto.
  - destruct (lock s); cbn; tauto.
  - rewrite Et. tauto.
Qed.

Lemma step_lock defs s t : lock (fst (step defs s t)) = lock s \/ lock (fst (step defs s t)) = true \/
  (exists b, at_ t = Release b /\ lock (fst (step defs s t)) = false).
Proof.
  unfold step. destruct (at_ t) eqn:Et; cbn; eauto.
  - destruct (todo t) as [|[|id] r]; cbn; auto. destruct (cb s); cbn; auto.
  - destruct (cb s); cbn; auto.
  - destruct (cb s); cbn; auto. destruct (n =? id); cbn; auto. destruct rest as [|[|] r]; cbn; auto.
Qed.

Lemma excl_step defs s ts i t : excl (s, ts) -> nth_error ts i = Some t ->
  excl (fst (step defs s t), put ts i (snd (step defs s t))).
Proof.
  intros [H1 H2] Hi. cbn [fst snd] in *.
  assert (HB : forall j u, nth_error ts j = Some u -> defining u -> defining (snd (step defs s t)) -> i = j).
  { intros j u Hj Hu Ht. destruct (step_defining _ _ _ Ht) as [Hd|[He Hl]].
    - eapply H2; eassumption.
    - specialize (H1 _ _ Hj Hu). congruence. }
  split; cbn [fst snd].
  - intros j u Hj Hu. apply put_nth in Hj. destruct Hj as [[-> ->]|[N Hj]].
    + destruct (step_defining _ _ _ Hu) as [Hd|[He Hl]].
      * destruct (step_lock defs s t) as [E|[E|(b & E & E')]]; [rewrite E; eapply H1; eassumption|exact E|].
        exfalso. unfold step, defining in Hu. rewrite E in Hu. destruct b; cbn in Hu; exact Hu.
      * unfold step. rewrite He. reflexivity.
    + specialize (H1 _ _ Hj Hu). destruct (step_lock defs s t) as [E|[E|(b & E & E')]]; [congruence|exact E|].
      exfalso. apply N. eapply H2; [exact Hj|exact Hi|exact Hu|]. unfold defining. rewrite E. exact I.
  - intros j k u v Hj Hk Hu Hv. apply put_nth in Hj. apply put_nth in Hk.
    destruct Hj as [[-> ->]|[Nj Hj]], Hk as [[-> ->]|[Nk Hk]].
    + reflexivity.
    + eapply HB; eassumption.
    + symmetry. eapply HB; eassumption.
    + eapply H2; eassumption.
Qed.

Lemma excl_initial c its ps : excl (initial c its ps).
Proof.
  split; cbn; intros i; intros.
  - apply nth_fresh in H. destruct H as (l & _ & ->). destruct H0.
  - apply nth_fresh in H. destruct H as (l & _ & ->). destruct H1.
Qed.

Lemma excl_always defs c its ps sch : excl (exec defs (initial c its ps) sch).
Proof. apply exec_inv; [intros; apply excl_step; assumption|apply excl_initial]. Qed.

(** ** At most once *)
Definition pend (t : thread) : list nat :=
  (match at_ t with Store id => [id] | _ => [] end) ++ set_ids (todo t).

Definition avail (ts : list thread) : list nat := flat_map pend ts.

Lemma avail_put ts i t t' x : nth_error ts i = Some t -> In x (avail (put ts i t')) ->
  In x (pend t') \/ In x (avail ts).
Proof.
  unfold avail. intros Hi H. apply in_flat_map in H. destruct H as (u & Hu & Hx).
  apply In_nth_error in Hu. destruct Hu as [j Hj]. apply put_nth in Hj. destruct Hj as [[-> ->]|[N Hj]].
  - left; exact Hx.
  - right. apply in_flat_map. exists u. split; [eapply nth_error_In; eassumption|exact Hx].
Qed.

Lemma split_at {A} (ts : list A) i t : nth_error ts i = Some t ->
  exists l r, ts = l ++ t :: r /\ length l = i /\ forall x, put ts i x = l ++ x :: r.
Proof.
  revert i. induction ts as [|y ts IH]; intros [|i] H; cbn in H; try discriminate.
  - injection H as <-. exists [], ts. auto.
  - destruct (IH _ H) as (l & r & -> & <- & HP). exists (y :: l), r. split; [reflexivity|]. split; [reflexivity|].
    intro x. cbn. f_equal. apply HP.
Qed.

(** Pending callbacks are distinct, none of them was entered; the one waiting was not entered unless it runs. *)
Definition once (c : shared * list thread) : Prop :=
  NoDup (invoked (fst c) ++ avail (snd c)) /\
  (forall id, cb (fst c) = Some id -> ~ In id (avail (snd c)) /\
     (In id (invoked (fst c)) -> exists i t, nth_error (snd c) i = Some t /\
        ((exists r, at_ t = Body id r) \/ exists b, at_ t = Reset b))).

Lemma set_ids_cons o l : set_ids (o :: l) = match o with OSet id => id :: set_ids l | OQuery => set_ids l end.
Proof. destruct o; reflexivity. Qed.

(** Removing pending callbacks keeps the invariant's first part. *)
Lemma nodup_less (a l m m' r : list nat) : NoDup (a ++ l ++ m ++ r) ->
  (m' = m \/ exists x, m = x :: m') -> NoDup (a ++ l ++ m' ++ r).
Proof.
  intros H [->|[x ->]]; [exact H|]. rewrite app_assoc in *. cbn in H. apply NoDup_remove_1 in H. exact H.
Qed.

Lemma nodup_move (a l r : list nat) x m : NoDup (a ++ l ++ (x :: m) ++ r) -> ~ In x (a ++ l ++ m ++ r).
Proof.
  intro H. rewrite app_assoc in *. cbn in H. apply NoDup_remove_2 in H. exact H.
Qed.

Lemma once_step defs s ts i t : excl (s, ts) /\ once (s, ts) -> nth_error ts i = Some t ->
  once (fst (step defs s t), put ts i (snd (step defs s t))).
Proof.
  intros [HX [HN HC]] Hi. cbn [fst snd] in *.
  destruct (split_at ts i t Hi) as (l & r & -> & Hlen & HP).
  assert (Hput : forall x, avail (put (l ++ t :: r) i x) = avail l ++ pend x ++ avail r).
  { intro x. rewrite HP. unfold avail. rewrite flat_map_app. reflexivity. }
  assert (Hav : avail (l ++ t :: r) = avail l ++ pend t ++ avail r).
  { unfold avail. rewrite flat_map_app. reflexivity. }
  rewrite Hav in HN, HC.
  assert (Hil : i < length (l ++ t :: r)) by (apply nth_error_Some; congruence).
  (* a step which leaves cb and invoked alone and keeps its place inside *)
  assert (HK : forall s' t', cb s' = cb s -> invoked s' = invoked s ->
    (pend t' = pend t \/ exists x, pend t = x :: pend t') ->
    (forall id, cb s = Some id -> (exists rr, at_ t = Body id rr) \/ (exists b, at_ t = Reset b) ->
       (exists rr, at_ t' = Body id rr) \/ (exists b, at_ t' = Reset b)) ->
    once (s', put (l ++ t :: r) i t')).
  { intros s' t' Ecb Einv Hpend Hin. split; cbn [fst snd]; rewrite Hput, ?Ecb, ?Einv.
    - eapply nodup_less; eassumption.
    - intros id Hid. destruct (HC id Hid) as [Hna Hrun]. split.
      + intro HI. apply Hna. rewrite !in_app_iff in *. destruct Hpend as [E|[x E]]; rewrite E in *; cbn; tauto.
      + intro HI. destruct (Hrun HI) as (j & u & Hj & Hu). destruct (Nat.eq_dec j i) as [->|N].
        * exists i, t'. split; [apply put_same; exact Hil|]. assert (u = t) by congruence. subst u. auto.
        * exists j, u. split; [rewrite put_other by congruence; exact Hj|exact Hu]. }
  unfold step. destruct (at_ t) eqn:Et.
  - (* Next *)
    destruct (todo t) as [|[|id] rr] eqn:Etd.
    + apply HK; cbn [fst snd]; auto. rewrite Et. auto.
    + destruct (cb s) eqn:Ecb; apply HK; cbn [fst snd]; auto; try (left; unfold pend; cbn; rewrite ?Et, ?Etd; reflexivity);
      try (intros dd Hdd [[r0 E]|[b E]]; congruence).
    + destruct (cb s) as [c|] eqn:Ecb; cbn [fst snd]; apply HK; cbn; auto; try (left; unfold pend; cbn; rewrite ?Et, ?Etd; reflexivity);
      try (intros dd Hdd [[r0 E]|[b E]]; congruence).
      right. exists id. unfold pend. cbn. rewrite Et, Etd. reflexivity.
  - (* Exchange *)
    cbn [fst snd]. destruct (lock s); apply HK; cbn; auto; try (left; unfold pend; cbn; rewrite ?Et, ?Etd; reflexivity);
      try (intros dd Hdd [[r0 E]|[b E]]; congruence).
  - (* Enter *)
    destruct (cb s) as [id|] eqn:Ecb; cbn [fst snd].
    + assert (Hnew : ~ In id (invoked s)).
      { intro HI. destruct (HC id eq_refl) as [_ Hrun]. destruct (Hrun HI) as (j & u & Hj & Hu).
        destruct HX as [_ HX]. assert (j = i).
        { eapply HX; [exact Hj|exact Hi| |]; unfold defining; [|rewrite Et; exact I].
          destruct Hu as [[r0 ->]|[b ->]]; exact I. }
        subst j. assert (u = t) by congruence. subst u. destruct Hu as [[r0 E]|[b E]]; congruence. }
      destruct (HC id eq_refl) as [Hna _].
      assert (Epend : pend (Thread (Body id (defs id)) (todo t) (seen t) (errors t)) = pend t).
      { unfold pend. cbn. rewrite Et. reflexivity. }
      split; cbn [fst snd invoked cb]; rewrite Hput, Epend.
      * rewrite <- app_assoc. cbn. apply (NoDup_Add (a := id) (l := invoked s ++ avail l ++ pend t ++ avail r)).
        -- apply Add_app.
        -- split; [exact HN|]. rewrite in_app_iff. tauto.
      * intros d Hd. injection Hd as <-. split; [exact Hna|]. intros _. eexists i, _. split.
        -- apply put_same. exact Hil.
        -- left. cbn. eauto.
    + apply HK; cbn; auto; try (left; unfold pend; cbn; rewrite Et; reflexivity); intros; congruence.
  - (* Body *)
    destruct (cb s) as [c|] eqn:Ecb.
    + destruct (c =? id) eqn:Eid.
      * apply Nat.eqb_eq in Eid. subst c. destruct rest as [|[n|] rr]; cbn [fst snd]; apply HK; cbn; auto;
          try (left; unfold pend; cbn; rewrite Et; reflexivity); intros d Hd _; [right; eauto| |right; eauto].
        left. injection Hd as <-. eauto.
      * apply Nat.eqb_neq in Eid. cbn [fst snd]. apply HK; cbn; auto;
          try (left; unfold pend; cbn; rewrite Et; reflexivity); intros d Hd [[r0 E]|[b E]]; congruence.
    + cbn [fst snd]. apply HK; cbn; auto; try (left; unfold pend; cbn; rewrite Et; reflexivity); intros; congruence.
  - (* Reset *)
    cbn [fst snd].
    assert (Epend : pend (Thread (Release threw) (todo t) (seen t) (errors t)) = pend t).
    { unfold pend. cbn. rewrite Et. reflexivity. }
    split; cbn [fst snd invoked cb]; [rewrite Hput, Epend; exact HN|discriminate].
  - (* Release *)
    destruct threw; cbn [fst snd]; apply HK; cbn; auto;
      try (left; unfold pend; cbn; rewrite Et; reflexivity); intros d Hd [[r0 E]|[b E]]; congruence.
  - (* Look *)
    cbn [fst snd]. apply HK; cbn; auto; [left; unfold pend; cbn; rewrite Et; reflexivity|].
    intros d Hd [[r0 E]|[b E]]; congruence.
  - (* Store *)
    cbn [fst snd].
    assert (Epend : pend t = id :: pend (Thread Next (todo t) (seen t) (errors t))).
    { unfold pend. cbn. rewrite Et. reflexivity. }
    rewrite Epend in HN.
    split; cbn [fst snd invoked cb]; rewrite Hput.
    + eapply nodup_less; [exact HN|]. right. eexists. reflexivity.
    + apply nodup_move in HN. intros d Hd. injection Hd as <-. rewrite in_app_iff in HN. split; [tauto|].
      intro HI. exfalso. tauto.
  - (* Crashed *)
    cbn [fst snd]. apply HK; auto. rewrite Et. auto.
Qed.

Lemma avail_fresh ps : avail (map fresh ps) = flat_map set_ids ps.
Proof. induction ps as [|p ps IH]; cbn; [reflexivity|]. rewrite <- IH. reflexivity. Qed.

Lemma once_always defs c its ps sch :
  NoDup ((match c with Some d => [d] | None => [] end) ++ flat_map set_ids ps) ->
  once (exec defs (initial c its ps) sch).
Proof.
  intro H.
  apply (exec_inv defs (fun c => excl c /\ once c)).
  - intros s ts i t HH Hi. split; [apply excl_step; tauto|apply once_step; assumption].
  - split; [apply excl_initial|]. split; cbn [fst snd initial invoked cb]; rewrite avail_fresh.
    + destruct c; cbn in *; [inversion H; assumption|exact H].
    + intros id ->. cbn in H. inversion H. split; [assumption|]. intros [].
Qed.

(** ** What is seen, when nobody sets a callback *)
Section Seen.
  Variable defs : nat -> list bstep.
  Variable d : nat.
  Variable its : list nat.

  Let full := its ++ contributes (defs d).

  Inductive stage := Waiting | Running (i : nat) (rest : list bstep) | Leaving (i : nat) | Done.

  Definition calm (p : pc) : Prop :=
    match p with Next | Exchange | Look Busy => True | _ => False end.

  Definition place (g : stage) (i : nat) (p : pc) : Prop :=
    match g with
    | Waiting => calm p \/ p = Enter
    | Running j rest => if i =? j then p = Body d rest else calm p
    | Leaving j => if i =? j then exists b, p = Reset b else calm p
    | Done => match p with Body _ _ | Reset _ | Store _ => False | _ => True end
    end.

  Definition world (g : stage) (s : shared) : Prop :=
    match g with
    | Waiting => cb s = Some d /\ invoked s = [] /\ items s = its
    | Running _ rest => cb s = Some d /\ invoked s = [d] /\
        exists p, items s = its ++ p /\ contributes (defs d) = p ++ contributes rest
    | Leaving _ => cb s = Some d /\ invoked s = [d] /\ items s = full
    | Done => cb s = None /\ invoked s = [d] /\ items s = full
    end.

  Definition fair (e : path * list nat) : Prop :=
    (exists p, snd e = its ++ p /\ prefix_of p (contributes (defs d))) /\ (fst e <> Busy -> snd e = full).

  Definition tidy (t : thread) : Prop := Forall fair (seen t) /\ forall o, In o (todo t) -> ~ is_set o.

  Definition alive (g : stage) (n : nat) : Prop :=
    match g with Running j _ | Leaving j => j < n | _ => True end.

  Definition staged (g : stage) (c : shared * list thread) : Prop :=
    world g (fst c) /\ alive g (length (snd c)) /\
    forall i t, nth_error (snd c) i = Some t -> place g i (at_ t) /\ tidy t.

  Definition seen_inv (c : shared * list thread) : Prop := excl c /\ exists g, staged g c.

  (** Items only grow towards [full]. *)
  Lemma world_prefix g s : world g s -> exists p, items s = its ++ p /\ prefix_of p (contributes (defs d)).
  Proof.
    destruct g; cbn; intros (_ & _ & H).
    - exists []. rewrite app_nil_r. split; [exact H|]. eexists. reflexivity.
    - destruct H as (p & H & E). exists p. split; [exact H|]. exists (contributes rest). exact E.
    - exists (contributes (defs d)). split; [exact H|]. exists []. symmetry. apply app_nil_r.
    - exists (contributes (defs d)). split; [exact H|]. exists []. symmetry. apply app_nil_r.
  Qed.

  Lemma staged_put g g' s s' ts i t' :
    staged g (s, ts) -> world g' s' -> alive g' (length ts) -> place g' i (at_ t') -> tidy t' ->
    (forall j u, j <> i -> nth_error ts j = Some u -> place g j (at_ u) -> place g' j (at_ u)) ->
    staged g' (s', put ts i t').
  Proof.
    intros (HW & HA & HT) HW' HA' HP' Ht' Hoth. split; [exact HW'|]. cbn [fst snd] in *.
    split; [rewrite put_length; exact HA'|]. intros j u Hj.
    apply put_nth in Hj. destruct Hj as [[-> ->]|[N Hj]]; [split; assumption|].
    destruct (HT j u Hj) as [HP Hu]. split; [|exact Hu]. eapply Hoth; eassumption.
  Qed.

  Lemma tidy_look t p s g : world g s -> (p <> Busy -> items s = full) -> tidy t ->
    tidy (Thread Next (todo t) (seen t ++ [(p, items s)]) (errors t)).
  Proof.
    intros HW HF [H1 H2]. split; cbn; [|exact H2]. apply Forall_app. split; [exact H1|].
    constructor; [|constructor]. split; cbn; [eapply world_prefix; eassumption|exact HF].
  Qed.

  Lemma place_keep g i p q : place g i p -> calm p -> calm q -> place g i q.
  Proof.
    destruct g; cbn; intros H Hp Hq; auto.
    - destruct (i =? i0); [subst p; destruct Hp|exact Hq].
    - destruct (i =? i0); [destruct H as [b ->]; destruct Hp|exact Hq].
    - destruct q as [| | | | | | [| |]| |]; cbn in *; auto.
  Qed.

  (** Two threads which run the definition are one. *)
  Lemma alone g s ts i t j u : excl (s, ts) -> staged g (s, ts) -> nth_error ts i = Some t -> defining t ->
    nth_error ts j = Some u -> j <> i -> place g j (at_ u) -> calm (at_ u) \/
      (g = Done /\ match at_ u with Look _ | Crashed => True | _ => False end).
  Proof.
    intros HX HG Hi Hd Hj N HP.
    assert (Hu : ~ defining u). { intro Hu. apply N. eapply (proj2 HX); cbn; eauto. }
    unfold defining in Hu. destruct g; cbn in HP.
    - destruct HP as [HP|HP]; [left; exact HP|]. rewrite HP in Hu. tauto.
    - destruct (j =? i0); [rewrite HP in Hu; tauto|left; exact HP].
    - destruct (j =? i0); [destruct HP as [b E]; rewrite E in Hu; tauto|left; exact HP].
    - destruct (at_ u) as [| | | | | | [| |]| |]; cbn in *; tauto.
  Qed.

  Lemma seen_step s ts i t : seen_inv (s, ts) -> nth_error ts i = Some t ->
    seen_inv (fst (step defs s t), put ts i (snd (step defs s t))).
  Proof.
    intros [HX (g & HG)] Hi. split; [apply excl_step; assumption|].
    destruct (proj2 (proj2 HG) i t Hi) as [HP Ht]. pose proof (proj1 HG) as HW.
    pose proof (proj1 (proj2 HG)) as HA. cbn [fst snd] in *.
    assert (Hsame : forall s' t', world g s' -> place g i (at_ t') -> tidy t' ->
              exists g', staged g' (s', put ts i t')).
    { intros s' t' H1 H2 H3. exists g. eapply staged_put; [exact HG|exact H1|exact HA|exact H2|exact H3|auto]. }
    assert (Htp : forall p e, tidy (Thread p (todo t) (seen t) e)) by (intros p e; split; apply Ht).
    assert (Hil : i < length ts) by (apply nth_error_Some; congruence).
    unfold step. destruct (at_ t) eqn:Et.
    - (* Next *)
      destruct Ht as [Hs Hq]. destruct (todo t) as [|[|id] rr] eqn:Etd; cbn [fst snd].
      + apply Hsame; [exact HW|rewrite Et; exact HP|]. split; [exact Hs|rewrite Etd; exact Hq].
      + apply Hsame; [exact HW| |split; cbn; [exact Hs|intros o Ho; apply Hq; right; exact Ho]]. cbn.
        destruct (cb s) as [c|] eqn:Ec.
        * eapply place_keep; [exact HP|exact I|exact I].
        * destruct g; cbn in HW |- *; destruct HW as (E & _); try congruence. exact I.
      + exfalso. apply (Hq (OSet id)); [left; reflexivity|exact I].
    - (* Exchange *)
      cbn [fst snd]. destruct (lock s) eqn:El.
      + apply Hsame; [|cbn; eapply place_keep; [exact HP|exact I|exact I]|apply Htp]. destruct g; exact HW.
      + assert (Hfree : forall j u, nth_error ts j = Some u -> defining u -> False).
        { intros j u Hj Hu. pose proof (proj1 HX j u Hj Hu) as Q. cbn in Q. congruence. }
        apply Hsame; [destruct g; exact HW| |apply Htp]. cbn. destruct g; cbn in HP, HA |- *.
        * right; reflexivity.
        * exfalso. apply nth_error_Some in HA. destruct (nth_error ts i0) as [u|] eqn:Eu; [|congruence].
          apply (Hfree i0 u Eu). pose proof (proj1 (proj2 (proj2 HG) i0 u Eu)) as Q. cbn in Q.
          rewrite Nat.eqb_refl in Q. unfold defining. rewrite Q. exact I.
        * exfalso. apply nth_error_Some in HA. destruct (nth_error ts i0) as [u|] eqn:Eu; [|congruence].
          apply (Hfree i0 u Eu). pose proof (proj1 (proj2 (proj2 HG) i0 u Eu)) as Q. cbn in Q.
          rewrite Nat.eqb_refl in Q. unfold defining. destruct Q as [b ->]. exact I.
        * exact I.
    - (* Enter *)
      assert (Hd : defining t) by (unfold defining; rewrite Et; exact I).
      destruct (cb s) as [c|] eqn:Ec; cbn [fst snd].
      + destruct g; cbn in HW, HP.
        * destruct HW as (E & Hinv & Hit). rewrite Ec in E. injection E as ->.
          exists (Running i (defs d)). eapply staged_put; [exact HG| |exact Hil| |apply Htp|].
          -- cbn. rewrite ?Ec, Hinv. split; [reflexivity|]. split; [reflexivity|]. exists [].
             rewrite app_nil_r. split; [exact Hit|reflexivity].
          -- cbn. rewrite Nat.eqb_refl. reflexivity.
          -- intros j u N Hj HPj. destruct (alone _ _ _ _ _ _ _ HX HG Hi Hd Hj N HPj) as [Q|[Q _]]; [|discriminate].
             cbn. apply Nat.eqb_neq in N. rewrite N. exact Q.
        * destruct (i =? i0); [discriminate|destruct HP].
        * destruct (i =? i0); [destruct HP; discriminate|destruct HP].
        * destruct HW as (E & _). congruence.
      + apply Hsame; [exact HW| |apply Htp]. cbn. destruct g; cbn in HW |- *; destruct HW as (E & _); try congruence.
        exact I.
    - (* Body *)
      assert (Hd : defining t) by (unfold defining; rewrite Et; exact I).
      destruct g; cbn in HW, HP; try (destruct HP as [[]|HP]; discriminate); try contradiction.
      2:{ destruct (i =? i0); [destruct HP; discriminate|destruct HP]. }
      destruct (Nat.eqb_spec i i0) as [<-|N]; [|destruct HP]. injection HP as -> <-.
      destruct HW as (Ec & Hinv & p & Hit & Hp). rewrite Ec, Nat.eqb_refl.
      assert (Hoth : forall j u g', j <> i -> nth_error ts j = Some u -> place (Running i rest) j (at_ u) ->
                (forall q, calm q -> place g' j q) -> place g' j (at_ u)).
      { intros j u g' N Hj HPj Hq. cbn in HPj. apply Nat.eqb_neq in N. rewrite N in HPj. apply Hq. exact HPj. }
      destruct rest as [|[n|] rr]; cbn [fst snd].
      + exists (Leaving i). eapply staged_put; [exact HG| |exact Hil| |apply Htp|].
        * cbn. split; [exact Ec|]. split; [exact Hinv|]. cbn in Hp. rewrite app_nil_r in Hp. unfold full.
          rewrite Hp. exact Hit.
        * cbn. rewrite Nat.eqb_refl. eauto.
        * intros j u N Hj HPj. eapply Hoth; [exact N|exact Hj|exact HPj|]. intros q Hq. cbn.
          apply Nat.eqb_neq in N. rewrite N. exact Hq.
      + exists (Running i rr). eapply staged_put; [exact HG| |exact Hil| |apply Htp|].
        * cbn. split; [reflexivity|]. split; [exact Hinv|]. exists (p ++ [n]). split.
          -- rewrite Hit, app_assoc. reflexivity.
          -- rewrite <- app_assoc. exact Hp.
        * cbn. rewrite Nat.eqb_refl. reflexivity.
        * intros j u N Hj HPj. eapply Hoth; [exact N|exact Hj|exact HPj|]. intros q Hq. cbn.
          apply Nat.eqb_neq in N. rewrite N. exact Hq.
      + exists (Leaving i). eapply staged_put; [exact HG| |exact Hil| |apply Htp|].
        * cbn. split; [exact Ec|]. split; [exact Hinv|]. cbn in Hp. rewrite app_nil_r in Hp. unfold full.
          rewrite Hp. exact Hit.
        * cbn. rewrite Nat.eqb_refl. eauto.
        * intros j u N Hj HPj. eapply Hoth; [exact N|exact Hj|exact HPj|]. intros q Hq. cbn.
          apply Nat.eqb_neq in N. rewrite N. exact Hq.
    - (* Reset *)
      destruct g; cbn in HW, HP; try (destruct HP as [[]|HP]; discriminate); try contradiction.
      1:{ destruct (i =? i0); [discriminate|destruct HP]. }
      destruct (Nat.eqb_spec i i0) as [<-|N]; [|destruct HP]. destruct HW as (Ec & Hinv & Hit). cbn [fst snd].
      exists Done. eapply staged_put; [exact HG| |exact I|exact I|apply Htp|].
      + cbn. auto.
      + intros j u N Hj HPj. cbn in HPj. apply Nat.eqb_neq in N. rewrite N in HPj.
        destruct (at_ u) as [| | | | | | [| |]| |]; cbn in *; tauto.
    - (* Release *)
      destruct g; cbn in HW, HP; try (destruct HP as [[]|HP]; discriminate).
      1:{ destruct (i =? i0); [discriminate|destruct HP]. }
      1:{ destruct (i =? i0); [destruct HP; discriminate|destruct HP]. }
      destruct threw; cbn [fst snd]; (apply Hsame; [exact HW|exact I|apply Htp]).
    - (* Look *)
      cbn [fst snd]. apply Hsame; [exact HW| |].
      + cbn. destruct g; cbn in HP |- *; auto.
        * destruct (i =? i0); [discriminate|exact I].
        * destruct (i =? i0); [destruct HP; discriminate|exact I].
      + eapply tidy_look; [exact HW| |exact Ht]. intro Hp. destruct g; cbn in HW, HP.
        * destruct HP as [HP|HP]; [|discriminate]. destruct p; cbn in HP; tauto.
        * destruct (i =? i0); [discriminate|]. destruct p; cbn in HP; tauto.
        * apply HW.
        * apply HW.
    - (* Store *)
      destruct g; cbn in HP; try (destruct HP as [[]|HP]; discriminate); try contradiction.
      + destruct (i =? i0); [discriminate|destruct HP].
      + destruct (i =? i0); [destruct HP; discriminate|destruct HP].
    - (* Crashed *)
      cbn [fst snd]. apply Hsame; [exact HW|rewrite Et; exact HP|exact Ht].
  Qed.

  Lemma seen_initial ps : only_queries ps -> seen_inv (initial (Some d) its ps).
  Proof.
    intro HQ. split; [apply excl_initial|]. exists Waiting. split; [cbn; auto|]. split; [exact I|].
    intros i t Hi. cbn in Hi. apply nth_fresh in Hi. destruct Hi as (l & Hl & ->). split; [left; exact I|].
    split; [constructor|]. cbn. intros o Ho. eapply HQ; eassumption.
  Qed.

  Lemma seen_always ps sch : only_queries ps -> seen_inv (exec defs (initial (Some d) its ps) sch).
  Proof. intro HQ. apply exec_inv; [intros; apply seen_step; assumption|apply seen_initial; exact HQ]. Qed.
End Seen.

(** ** After the definition has run *)
Definition settled (its : list nat) (c : shared * list thread) : Prop :=
  cb (fst c) = None /\ items (fst c) = its /\ forall i t, nth_error (snd c) i = Some t ->
    (at_ t = Next \/ at_ t = Look Absent) /\ Forall (fun e => snd e = its) (seen t) /\
    errors t = 0 /\ forall o, In o (todo t) -> ~ is_set o.

Lemma settled_step defs its s ts i t : settled its (s, ts) -> nth_error ts i = Some t ->
  settled its (fst (step defs s t), put ts i (snd (step defs s t))).
Proof.
  intros (Hc & Hit & HT) Hi. cbn [fst snd] in *. destruct (HT i t Hi) as (Hat & Hs & He & Hq).
  assert (HK : forall t', (at_ t' = Next \/ at_ t' = Look Absent) -> Forall (fun e => snd e = its) (seen t') ->
    errors t' = 0 -> (forall o, In o (todo t') -> ~ is_set o) -> settled its (s, put ts i t')).
  { intros t' H1 H2 H3 H4. split; [exact Hc|]. split; [exact Hit|]. intros j u Hj. cbn in Hj. apply put_nth in Hj.
    destruct Hj as [[-> ->]|[N Hj]]; [auto|eapply HT; eassumption]. }
  unfold step. destruct Hat as [Et|Et]; rewrite Et.
  - destruct (todo t) as [|[|id] r] eqn:Etd.
    + apply HK; cbn; auto. rewrite Etd; exact Hq.
    + rewrite Hc. apply HK; cbn; auto. intros o Ho. apply Hq. right; exact Ho.
    + exfalso. apply (Hq (OSet id)); [left; reflexivity|exact I].
  - cbn [fst snd]. apply HK; cbn; auto. apply Forall_app. split; [exact Hs|]. constructor; [exact Hit|constructor].
Qed.

Lemma settled_always defs its ps sch : only_queries ps -> settled its (exec defs (initial None its ps) sch).
Proof.
  intro HQ. apply exec_inv; [intros; apply settled_step; assumption|].
  split; [reflexivity|]. split; [reflexivity|]. intros i t Hi. cbn in Hi. apply nth_fresh in Hi.
  destruct Hi as (l & Hl & ->). cbn. split; [auto|]. split; [constructor|]. split; [reflexivity|].
  intros o Ho. eapply HQ; eassumption.
Qed.

(** ** One thread *)
Definition solo (c : shared * list thread) : Prop :=
  exists t, snd c = [t] /\
  match at_ t with
  | Next | Look _ => lock (fst c) = false
  | Store _ => lock (fst c) = false
  | Exchange => lock (fst c) = false /\ cb (fst c) <> None
  | Enter => cb (fst c) <> None
  | Body id _ => cb (fst c) = Some id
  | Reset _ | Release _ => True
  | Crashed => False
  end.

Lemma solo_step defs s ts i t : solo (s, ts) -> nth_error ts i = Some t ->
  solo (fst (step defs s t), put ts i (snd (step defs s t))).
Proof.
  intros (u & E & H) Hi. cbn [fst snd] in *. subst ts. destruct i as [|i]; [|destruct i; discriminate].
  injection Hi as ->. exists (snd (step defs s t)). split; [reflexivity|]. cbn [fst snd].
  unfold step. destruct (at_ t) eqn:Et.
  - destruct (todo t) as [|[|id] r]; cbn; [rewrite Et; exact H| |]; destruct (cb s) eqn:Ec; cbn; auto.
    split; [exact H|congruence].
  - destruct H as [Hl Hc]. rewrite Hl. exact Hc.
  - destruct (cb s) eqn:Ec; [cbn; reflexivity|congruence].
  - rewrite H, Nat.eqb_refl. destruct rest as [|[n|] r]; cbn; auto.
  - cbn. exact I.
  - destruct threw; reflexivity.
  - exact H.
  - cbn. exact H.
  - destruct H.
Qed.

Lemma solo_always defs c its p sch : solo (exec defs (initial c its [p]) sch).
Proof. apply exec_inv; [intros; apply solo_step; assumption|]. exists (fresh p). split; reflexivity. Qed.

(** ** Bounded work *)
Section Work.
  Variable defs : nat -> list bstep.
  Variable M : nat.
  Hypothesis HM : forall id, length (defs id) <= M.

  Definition cost (t : thread) : nat :=
    (match at_ t with
     | Next => 0 | Look _ => 1 | Store _ => 1 | Release _ => 2 | Reset _ => 3
     | Body _ r => 4 + length r | Enter => 5 + M | Exchange => 6 + M | Crashed => 0
     end) + length (todo t) * (7 + M).

  Definition stopped (t : thread) : Prop := at_ t = Crashed \/ (at_ t = Next /\ todo t = []).

  Lemma step_cost s t : stopped t \/ cost (snd (step defs s t)) < cost t \/ stopped (snd (step defs s t)).
  Proof.
    unfold stopped, cost, step. destruct (at_ t) eqn:Et; auto.
    - destruct (todo t) as [|[|id] r] eqn:Etd; auto; destruct (cb s); cbn; right; left; lia.
    - destruct (lock s); cbn; right; left; lia.
    - destruct (cb s); cbn; [|tauto]. right; left. specialize (HM n). lia.
    - destruct (cb s); [|cbn; tauto]. destruct (n =? id); [|cbn; tauto]. destruct rest as [|[|] r]; cbn; right; left; lia.
    - destruct threw; cbn; right; left; lia.
  Qed.

  Lemma step_stopped s t : stopped t -> step defs s t = (s, t).
  Proof. unfold stopped, step. intros [->|[-> ->]]; reflexivity. Qed.

  Lemma work sch : forall c i t, nth_error (snd c) i = Some t ->
    exists u, nth_error (snd (exec defs c sch)) i = Some u /\
      (stopped u \/ cost u + count_occ Nat.eq_dec sch i <= cost t).
  Proof.
    induction sch as [|j sch IH]; intros c i t Hi.
    - exists t. split; [exact Hi|right; cbn; lia].
    - cbn [exec fold_left]. fold (exec defs (turn defs c j) sch).
      assert (HT : exists t', nth_error (snd (turn defs c j)) i = Some t' /\
                (stopped t' \/ cost t' + (if Nat.eq_dec j i then 1 else 0) <= cost t)).
      { unfold turn. destruct (Nat.eq_dec j i) as [->|N].
        - rewrite Hi. destruct (step defs (fst c) t) as [s' t'] eqn:Es. cbn [snd]. exists t'.
          split; [apply put_same; apply nth_error_Some; congruence|].
          destruct (step_cost (fst c) t) as [Q|[Q|Q]].
          + rewrite (step_stopped _ _ Q) in Es. injection Es as _ <-. left; exact Q.
          + rewrite Es in Q. cbn in Q. right. lia.
          + rewrite Es in Q. left; exact Q.
        - exists t. split; [|right; lia]. destruct (nth_error (snd c) j); [|exact Hi].
          destruct (step defs (fst c) t0). cbn. rewrite put_other by congruence. exact Hi. }
      destruct HT as (t' & Hi' & HS). destruct (IH _ _ _ Hi') as (u & Hu & HU). exists u. split; [exact Hu|].
      cbn [count_occ]. destruct HS as [Hst|HS].
      + (* stopped threads stay so *)
        destruct HU as [HU|HU]; [left; exact HU|].
        left. assert (HF : forall sch c t, nth_error (snd c) i = Some t -> stopped t ->
                  nth_error (snd (exec defs c sch)) i = Some t).
        { clear. induction sch as [|k sch IH]; intros c t Hi Hs; [exact Hi|].
          cbn [exec fold_left]. apply IH; [|exact Hs]. unfold turn. destruct (Nat.eq_dec k i) as [->|N].
          - rewrite Hi, (step_stopped _ _ Hs). cbn. apply put_same. apply nth_error_Some. congruence.
          - destruct (nth_error (snd c) k); [|exact Hi]. destruct (step defs (fst c) t0). cbn.
            rewrite put_other by congruence. exact Hi. }
        rewrite (HF _ _ _ Hi' Hst) in Hu. injection Hu as <-. exact Hst.
      + destruct HU as [HU|HU]; [left; exact HU|]. right. destruct (Nat.eq_dec j i); lia.
  Qed.
End Work.
