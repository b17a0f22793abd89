(** Property theorems C39. *)
From Coq Require Import List Bool Arith Lia.
From Verif Require Import FinallyModel.
Import ListNotations.

(** Specification: a trace is read with a stack of the guards not yet destroyed ([true] = dismissed). Only the
    guard created last of those remaining may go; its function runs exactly if it was not dismissed. *)
Fixpoint mark (g : nat) (k : list (nat * bool)) : list (nat * bool) :=
  match k with [] => [] | (x, d) :: k' => if x =? g then (x, true) :: k' else (x, d) :: mark g k' end.
Fixpoint check (k : list (nat * bool)) (t : list event) : option (list (nat * bool)) :=
  match t with
  | [] => Some k
  | EAct _ :: t' => check k t'
  | ECreate g :: t' => check ((g, false) :: k) t'
  | EDismiss g :: t' => check (mark g k) t'
  | ERun g :: t' => match k with (x, false) :: k' => if x =? g then check k' t' else None | _ => None end
  | EDrop g :: t' => match k with (x, true) :: k' => if x =? g then check k' t' else None | _ => None end
  end.
(** Every guard created was destroyed, in reverse order, and ran unless dismissed. *)
Definition settled (t : list event) : Prop := check [] t = Some [].

Definition view (st : list guard) : list (nat * bool) := map (fun g => (g_id g, g_dismiss g)) st.

Section StmtInd.
  Variable P : stmt -> Prop.
  Hypothesis HAct : forall n, P (Act n).
  Hypothesis HGuard : forall g b, P (Guard g b).
  Hypothesis HDis : forall g, P (Dismiss g).
  Hypothesis HMove : forall g, P (MoveOf g).
  Hypothesis HRet : P Ret.
  Hypothesis HThrow : P Throw.
  Hypothesis HBlock : forall l, Forall P l -> P (Block l).
  Hypothesis HTry : forall l, Forall P l -> P (Try l).
  Hypothesis HCall : forall l, Forall P l -> P (Call l).
  Fixpoint stmt_ind2 (s : stmt) : P s :=
    let fix go (l : list stmt) : Forall P l :=
      match l with [] => Forall_nil P | s :: l' => Forall_cons s (stmt_ind2 s) (go l') end in
    match s with
    | Act n => HAct n | Guard g b => HGuard g b | Dismiss g => HDis g | MoveOf g => HMove g
    | Ret => HRet | Throw => HThrow
    | Block l => HBlock l (go l) | Try l => HTry l (go l) | Call l => HCall l (go l)
    end.
End StmtInd.

Fixpoint no_move (s : stmt) : bool :=
  match s with
  | MoveOf _ => false
  | Block l | Try l | Call l => forallb no_move l
  | _ => true
  end.
Fixpoint no_bad (s : stmt) : bool :=
  match s with
  | Guard _ thr => negb thr
  | Block l | Try l | Call l => forallb no_bad l
  | _ => true
  end.

(** The sequencing used inside [exec]. *)
Definition seq : nat -> list stmt -> list guard -> list event * list guard * outcome :=
  fix seq (base : nat) (l : list stmt) (st : list guard) {struct l} :=
    match l with
    | [] => unwind base st Normal
    | s :: l' =>
        let '(t, st1, o) := exec s st in
        match o with
        | Normal => let '(t2, st2, o2) := seq base l' st1 in (t ++ t2, st2, o2)
        | Terminated => (t, st1, Terminated)
        | _ => let '(t2, st2, o2) := unwind base st1 o in (t ++ t2, st2, o2)
        end
    end.

Lemma exec_block l st : exec (Block l) st = seq (List.length st) l st.
Proof. reflexivity. Qed.
Lemma exec_try l st : exec (Try l) st =
  let '(t, st1, o) := seq (List.length st) l st in (t, st1, match o with Throwing => Normal | _ => o end).
Proof. reflexivity. Qed.
Lemma exec_call l st : exec (Call l) st =
  let '(t, st1, o) := seq (List.length st) l st in (t, st1, match o with Returning => Normal | _ => o end).
Proof. reflexivity. Qed.

Lemma check_app t1 : forall t2 k k1, check k t1 = Some k1 -> check k (t1 ++ t2) = check k1 t2.
Proof.
  induction t1 as [|e t1 IH]; intros t2 k k1 H; cbn in *; [congruence|].
  destruct e; try (apply IH; exact H).
  - destruct k as [|[x []] k']; try discriminate. destruct (x =? g); [|discriminate]. apply IH. exact H.
  - destruct k as [|[x []] k']; try discriminate. destruct (x =? g); [|discriminate]. apply IH. exact H.
Qed.

Definition safe (st : list guard) : bool := forallb (fun g => negb (g_throws g)) st.

Lemma unwind_spec base st o : base <= List.length st -> o <> Terminated ->
  forall t st' o', unwind base st o = (t, st', o') ->
  check (view st) t = Some (view st') /\
  (o' = Terminated \/ (o' = o /\ List.length st' = base /\ exists u, st = u ++ st')) /\
  (safe st = true -> o' <> Terminated).
Proof.
  intros Hb Ho. induction st as [|g st IH]; intros t st' o' E.
  - cbn in E. injection E as <- <- <-. split; [reflexivity|]. split; [|auto]. right. cbn in *.
    repeat split; [lia|]. exists []. reflexivity.
  - cbn [unwind] in E. destruct (List.length (g :: st) <=? base) eqn:EL.
    + injection E as <- <- <-. apply Nat.leb_le in EL. split; [reflexivity|]. split; [|auto]. right.
      repeat split; [lia|]. exists []. reflexivity.
    + apply Nat.leb_gt in EL. cbn in EL. destruct (g_dismiss g) eqn:Ed.
      * destruct (unwind base st o) as [[t2 st2] o2] eqn:E2. injection E as <- <- <-.
        destruct (IH ltac:(lia) _ _ _ eq_refl) as (H1 & H2 & H3). split; [|split].
        -- cbn. rewrite Ed, Nat.eqb_refl. exact H1.
        -- destruct H2 as [->|(-> & Hl & u & ->)]; [left; reflexivity|right].
           repeat split; [exact Hl|]. exists (g :: u). reflexivity.
        -- cbn. intro HF. apply andb_true_iff in HF as [_ HF]. auto.
      * destruct (g_throws g) eqn:Et.
        -- injection E as <- <- <-. split; [|split].
           ++ cbn. rewrite Ed, Nat.eqb_refl. reflexivity.
           ++ left. reflexivity.
           ++ cbn. rewrite Et. discriminate.
        -- destruct (unwind base st o) as [[t2 st2] o2] eqn:E2. injection E as <- <- <-.
           destruct (IH ltac:(lia) _ _ _ eq_refl) as (H1 & H2 & H3). split; [|split].
           ++ cbn. rewrite Ed, Nat.eqb_refl. exact H1.
           ++ destruct H2 as [->|(-> & Hl & u & ->)]; [left; reflexivity|right].
              repeat split; [exact Hl|]. exists (g :: u). reflexivity.
           ++ cbn. rewrite Et. exact H3.
Qed.

Lemma mark_view g st : mark g (view st) = view (dismiss g st).
Proof. induction st as [|x st IH]; cbn; [reflexivity|]. destruct (g_id x =? g); cbn; [reflexivity|]. f_equal. exact IH. Qed.
Lemma dismiss_length g st : List.length (dismiss g st) = List.length st.
Proof. induction st as [|x st IH]; cbn; [reflexivity|]. destruct (g_id x =? g); cbn; congruence. Qed.
Lemma dismiss_safe g st : safe (dismiss g st) = safe st.
Proof. induction st as [|x st IH]; cbn; [reflexivity|]. destruct (g_id x =? g); cbn; [reflexivity|]. unfold safe in IH. rewrite IH. reflexivity. Qed.

(** What one statement (or block) guarantees. *)
Definition good (st : list guard) (bad_free : bool) (r : list event * list guard * outcome) : Prop :=
  let '(t, st', o) := r in
  check (view st) t = Some (view st') /\
  (o <> Terminated -> List.length st <= List.length st') /\
  (bad_free = true -> safe st = true -> o <> Terminated /\ safe st' = true).

Lemma safe_app u v : safe (u ++ v) = safe u && safe v.
Proof. apply forallb_app. Qed.

Lemma seq_good l : Forall (fun s => no_move s = true -> forall st, good st (no_bad s) (exec s st)) l ->
  forallb no_move l = true ->
  forall base st, base <= List.length st ->
  let '(t, st', o) := seq base l st in
  check (view st) t = Some (view st') /\ (o <> Terminated -> List.length st' = base) /\
  (forallb no_bad l = true -> safe st = true -> o <> Terminated /\ safe st' = true).
Proof.
  induction l as [|s l IH]; intros HF HM base st Hb; cbn [seq].
  - destruct (unwind base st Normal) as [[t st'] o] eqn:E.
    destruct (unwind_spec base st Normal Hb ltac:(discriminate) _ _ _ E) as (H1 & H2 & H3).
    split; [exact H1|]. split.
    + intro Ho. destruct H2 as [H2|(_ & H2 & _)]; [contradiction|exact H2].
    + intros _ Hs. split; [auto|]. destruct H2 as [H2|(_ & _ & u & ->)]; [exfalso; apply (H3 Hs H2)|].
      rewrite safe_app in Hs. apply andb_true_iff in Hs. tauto.
  - cbn [forallb] in HM. apply andb_true_iff in HM as [Hm HM]. inversion HF as [|? ? Hs HF']; subst.
    specialize (Hs Hm st). unfold good in Hs. destruct (exec s st) as [[t st1] o] eqn:E.
    destruct Hs as (H1 & H2 & H3).
    assert (HU : o = Returning \/ o = Throwing ->
      let '(t2, st2, o2) := unwind base st1 o in
      check (view st) (t ++ t2) = Some (view st2) /\ (o2 <> Terminated -> List.length st2 = base) /\
      (forallb no_bad (s :: l) = true -> safe st = true -> o2 <> Terminated /\ safe st2 = true)).
    { intro Ho. assert (Hno : o <> Terminated) by (destruct Ho; subst; discriminate).
      pose proof (H2 Hno) as Hl.
      destruct (unwind base st1 o) as [[t2 st2] o2] eqn:E2.
      destruct (unwind_spec base st1 o ltac:(lia) Hno _ _ _ E2) as (U1 & U2 & U3).
      split; [rewrite (check_app t t2 _ _ H1); exact U1|]. split.
      - intro Hn. destruct U2 as [U2|(_ & U2 & _)]; [contradiction|exact U2].
      - cbn [forallb]. intros HB Hs. apply andb_true_iff in HB as [HB _]. destruct (H3 HB Hs) as [_ Hs1].
        split; [auto|]. destruct U2 as [U2|(_ & _ & u & ->)]; [exfalso; apply (U3 Hs1 U2)|].
        rewrite safe_app in Hs1. apply andb_true_iff in Hs1. tauto. }
    destruct o.
    + assert (Hl := H2 ltac:(discriminate)).
      specialize (IH HF' HM base st1 ltac:(lia)). fold seq. destruct (seq base l st1) as [[t2 st2] o2].
      destruct IH as (I1 & I2 & I3). split; [rewrite (check_app t t2 _ _ H1); exact I1|]. split; [exact I2|].
      cbn [forallb]. intros HB Hs. apply andb_true_iff in HB as [HB HBl]. destruct (H3 HB Hs) as [_ Hs1]. auto.
    + specialize (HU (or_introl eq_refl)). destruct (unwind base st1 Returning) as [[t2 st2] o2]. exact HU.
    + specialize (HU (or_intror eq_refl)). destruct (unwind base st1 Throwing) as [[t2 st2] o2]. exact HU.
    + split; [exact H1|]. split; [congruence|]. cbn [forallb]. intros HB Hs. apply andb_true_iff in HB as [HB _].
      destruct (H3 HB Hs) as [HX _]. congruence.
Qed.

Lemma exec_good s : no_move s = true -> forall st, good st (no_bad s) (exec s st).
Proof.
  induction s as [n|g b|g|g| | |l IH|l IH|l IH] using stmt_ind2; intros HM st; unfold good.
  - cbn. repeat split; auto; try discriminate.
  - cbn. repeat split; auto; try lia; try discriminate. cbn. rewrite H. exact H0.
  - cbn [exec]. destruct (lookup_guard g st).
    + cbn [check]. rewrite mark_view, dismiss_length, dismiss_safe. repeat split; auto; discriminate.
    + repeat split; auto; discriminate.
  - discriminate HM.
  - cbn. repeat split; auto; discriminate.
  - cbn. repeat split; auto; discriminate.
  - rewrite exec_block. pose proof (seq_good l IH HM (List.length st) st (le_n _)) as H.
    destruct (seq (List.length st) l st) as [[t st'] o]. destruct H as (H1 & H2 & H3).
    split; [exact H1|]. split; [|exact H3]. intro Ho. rewrite (H2 Ho). auto.
  - rewrite exec_try. pose proof (seq_good l IH HM (List.length st) st (le_n _)) as H.
    destruct (seq (List.length st) l st) as [[t st'] o]. destruct H as (H1 & H2 & H3).
    split; [exact H1|]. split.
    + intro Ho. rewrite H2 by (destruct o; congruence). auto.
    + intros HB Hs. destruct (H3 HB Hs) as [X Y]. split; [destruct o; congruence|exact Y].
  - rewrite exec_call. pose proof (seq_good l IH HM (List.length st) st (le_n _)) as H.
    destruct (seq (List.length st) l st) as [[t st'] o]. destruct H as (H1 & H2 & H3).
    split; [exact H1|]. split.
    + intro Ho. rewrite H2 by (destruct o; congruence). auto.
    + intros HB Hs. destruct (H3 HB Hs) as [X Y]. split; [destruct o; congruence|exact Y].
Qed.

Lemma body_good body : forallb no_move body = true ->
  let '(t, st, o) := exec (Call body) [] in
  check [] t = Some (view st) /\ (o <> Terminated -> st = []) /\ (forallb no_bad body = true -> o <> Terminated).
Proof.
  intro HM. rewrite exec_call.
  pose proof (seq_good body) as H. assert (HF : Forall (fun s => no_move s = true -> forall st, good st (no_bad s) (exec s st)) body).
  { apply Forall_forall. intros s _. apply exec_good. }
  specialize (H HF HM 0 [] (le_n _)). cbn [List.length]. destruct (seq 0 body []) as [[t st] o].
  destruct H as (H1 & H2 & H3). split; [exact H1|]. split.
  - intro Ho. apply length_zero_iff_nil. apply H2. destruct o; congruence.
  - intro HB. destruct (H3 HB eq_refl) as [X _]. destruct o; congruence.
Qed.

(** C39: in every function body whose guards do not throw (and are not moved), whichever way it is left, each
    guard created is destroyed exactly once, in reverse order of creation, and its function runs unless it was
    dismissed; a guard not created does not run. *)
Theorem C39_guards_run_once_reversed : forall body,
  forallb no_move body = true -> forallb no_bad body = true ->
  exists t o, exec (Call body) [] = (t, [], o) /\ o <> Terminated /\ settled t.
Proof.
  intros body HM HB. pose proof (body_good body HM) as H. destruct (exec (Call body) []) as [[t st] o].
  destruct H as (H1 & H2 & H3). specialize (H3 HB). specialize (H2 H3). subst st. exists t, o. auto.
Qed.
Print Assumptions C39_guards_run_once_reversed.

(** Even when a guard throws (the program ends there) guards up to that point ran in order, none twice. *)
Theorem C39_prefix_when_terminated : forall body, forallb no_move body = true ->
  exists t st o k, exec (Call body) [] = (t, st, o) /\ check [] t = Some k.
Proof.
  intros body HM. pose proof (body_good body HM) as H. destruct (exec (Call body) []) as [[t st] o].
  destruct H as (H1 & _). eauto 6.
Qed.
Print Assumptions C39_prefix_when_terminated.

(** In terms of counts: each guard is created as often as it is destroyed. *)
Definition is_create (g : nat) (e : event) : bool := match e with ECreate h => h =? g | _ => false end.
Definition is_gone (g : nat) (e : event) : bool := match e with ERun h | EDrop h => h =? g | _ => false end.
Definition pending (g : nat) (k : list (nat * bool)) : nat := List.length (filter (fun p => fst p =? g) k).

Lemma pending_mark g h k : pending g (mark h k) = pending g k.
Proof.
  unfold pending. induction k as [|[x d] k IH]; cbn; [reflexivity|]. destruct (x =? h); cbn; [destruct (x =? g); reflexivity|].
  destruct (x =? g); cbn; rewrite IH; reflexivity.
Qed.

Lemma check_counts g t : forall k k', check k t = Some k' ->
  pending g k + List.length (filter (is_create g) t) = pending g k' + List.length (filter (is_gone g) t).
Proof.
  induction t as [|e t IH]; intros k k' H; cbn [check] in H.
  - injection H as <-. reflexivity.
  - destruct e; cbn [filter is_create is_gone].
    + apply IH. exact H.
    + apply IH in H. unfold pending in *. cbn [filter fst] in H. destruct (g0 =? g); cbn in *; lia.
    + apply IH in H. rewrite pending_mark in H. exact H.
    + destruct k as [|[x []] k0]; try discriminate. destruct (x =? g0) eqn:E; [|discriminate].
      apply Nat.eqb_eq in E. subst x. apply IH in H. unfold pending in *. cbn [filter fst].
      destruct (g0 =? g); cbn in *; lia.
    + destruct k as [|[x []] k0]; try discriminate. destruct (x =? g0) eqn:E; [|discriminate].
      apply Nat.eqb_eq in E. subst x. apply IH in H. unfold pending in *. cbn [filter fst].
      destruct (g0 =? g); cbn in *; lia.
Qed.

Theorem C39_created_as_often_as_destroyed : forall t g, settled t ->
  List.length (filter (is_create g) t) = List.length (filter (is_gone g) t).
Proof. intros t g H. apply (check_counts g) in H. exact H. Qed.
Print Assumptions C39_created_as_often_as_destroyed.

Example C39_example :
  let body := [Guard 1 false; Act 10; Try [Guard 2 false; Act 11; Throw; Act 12; Guard 3 false];
               Guard 4 false; Dismiss 1; Block [Guard 5 false; Ret]; Act 13] in
  forallb no_move body = true /\ forallb no_bad body = true /\
  exec (Call body) [] = ([ECreate 1; EAct 10; ECreate 2; EAct 11; ERun 2; ECreate 4; EDismiss 1; ECreate 5;
                          ERun 5; ERun 4; EDrop 1], [], Normal).
Proof. repeat split. Qed.

(** A guard initialised from another one (the defaulted move constructor) runs the function twice. *)
Theorem C39_moved_guard_refuted : exists body t, forallb no_bad body = true /\
  exec (Call body) [] = (t, [], Normal) /\ List.length (filter (is_gone 1) t) = 2 /\
  List.length (filter (is_create 1) t) = 1.
Proof. exists [Guard 1 false; MoveOf 1]. eexists. repeat split. Qed.
Print Assumptions C39_moved_guard_refuted.

(** A guard whose function throws ends the program; the other guards do not run. *)
Theorem C39_throwing_guard_refuted : exists body t st, exec (Call body) [] = (t, st, Terminated) /\
  In (ECreate 1) t /\ ~ In (ERun 1) t.
Proof.
  exists [Guard 1 false; Guard 2 true]. do 2 eexists. split; [reflexivity|].
  split; [left; reflexivity|]. cbn. intuition discriminate.
Qed.
Print Assumptions C39_throwing_guard_refuted.
