(** What an order of the calls says about single calls. Nothing here models code of /repo. *)
From Coq Require Import List Bool Arith Lia.
From Verif Require Import DeferModel RaceModel RaceSpec AtomicSpec AtomicBook.
Import ListNotations.

Section Use.
  Variable decay : nat -> nat.

  Lemma history_mid h : forall m m' p e, history decay m h m' -> nth_error h p = Some e ->
    exists m1 m2, history decay m (firstn p h) m1 /\ happens decay e m1 m2 /\ history decay m2 (skipn (S p) h) m'.
  Proof.
    induction h as [|x h IH]; intros m m' p e H E; [destruct p; discriminate E|]. cbn [history] in H. destruct H as (m1 & A & B). destruct p as [|p].
    - cbn in E. injection E as ->. exists m, m1. cbn [firstn skipn]. split; [intros l _; reflexivity|]. split; [exact A|exact B].
    - destruct (IH _ _ _ _ B E) as (m2 & m3 & C & D & F). exists m2, m3. split; [|split; [exact D|exact F]]. cbn [firstn history]. exists m1. tauto.
  Qed.

  (** What stays as it is in a stretch of the history. *)
  Lemma history_keeps (Q : val -> Prop) l h : listed l -> (forall e m m', In e h -> happens decay e m m' -> Q (m l) -> Q (m' l)) ->
    forall m m', history decay m h m' -> Q (m l) -> Q (m' l).
  Proof.
    intro L. induction h as [|e h IH]; cbn [history]; intros S m m' H A; [rewrite (H l L); exact A|]. destruct H as (m1 & B & C).
    apply (IH (fun e' m2 m3 He => S e' m2 m3 (or_intror He)) m1 m' C). exact (S e m m1 (or_introl eq_refl) B A).
  Qed.

  (** The converters change by registering and unregistering only. *)
  Lemma conv_step e m m' : happens decay e m m' ->
    m' LConv = m LConv \/
    (exists x y f b v, e = Took (RegConv x y f) b v /\ ((x =? 0) || (y =? 0)) = false /\ converts (convs (m LConv)) (decay x, decay y) None /\
       convs (m' LConv) = convs (m LConv) ++ [((decay x, decay y), f)]) \/
    (exists x y b v, e = Took (UnregConv x y) b v /\ ((x =? 0) || (y =? 0)) = false /\
       forall r, In r (convs (m' LConv)) <-> In r (convs (m LConv)) /\ fst r <> (decay x, decay y)).
  Proof.
    destruct e as [a b v|a b l n i]; cbn [happens].
    - intros (l & Hl & F & Bt).
      assert (D : l = LConv \/ l <> LConv) by (destruct l; try (right; discriminate); left; reflexivity). destruct D as [->|D].
      + destruct a; cbn in Hl; try discriminate Hl; cbn [effect] in F; try (left; exact (proj1 F)).
        * destruct (_ || _) eqn:E; [left; exact (proj1 F)|]. destruct F as [F|(-> & A & B)]; [left; exact (proj1 F)|]. right. left.
          exists a, b0, f, b, (VBool true). tauto.
        * destruct F as [-> F]. destruct (_ || _) eqn:E; [left; exact F|]. right. right. exists a, b0, b, VUnit. tauto.
        * destruct k, n; discriminate Hl.
      + left. apply Bt; [exact I|congruence].
    - intros (_ & A & _ & _ & Bt). left. apply Bt; [exact I|]. intros <-. destruct a; cbn in A; try contradiction; try (destruct A; discriminate).
      destruct A as [[A _]|(cc & A & _)]; discriminate A.
  Qed.
End Use.

Lemma firstn_nth {A} n (h : list A) p : p < n -> nth_error (firstn n h) p = nth_error h p.
Proof. revert h p. induction n as [|n IH]; intros [|x h] [|p] L; cbn; try reflexivity; try lia. apply IH. lia. Qed.
Lemma skipn_nth {A} n (h : list A) p : nth_error (skipn n h) p = nth_error h (n + p).
Proof. revert h. induction n as [|n IH]; intros [|x h]; cbn; try reflexivity; [destruct p; reflexivity|apply IH]. Qed.
Lemma firstn_in {A} n (h : list A) x : In x (firstn n h) -> exists p, p < n /\ nth_error h p = Some x.
Proof.
  intro H. apply In_nth_error in H. destruct H as (p & Hp). assert (L : p < length (firstn n h)) by (apply nth_error_Some; congruence).
  rewrite firstn_length in L. exists p. split; [lia|]. rewrite <- (firstn_nth n) by lia. exact Hp.
Qed.

(** Every event between two has been answered. *)
Lemma between decay m s h answer p q e1 e2 : ordered decay m s h answer -> nth_error h p = Some e1 -> nth_error h q = Some e2 -> p < q ->
  exists m1 m2 m3 m4, history decay m (firstn p h) m1 /\ happens decay e1 m1 m2 /\
    history decay m2 (firstn (q - S p) (skipn (S p) h)) m3 /\ happens decay e2 m3 m4 /\
    forall e, In e (firstn (q - S p) (skipn (S p) h)) -> exists r, p < r < q /\ nth_error h r = Some e.
Proof.
  intros (H & _) E1 E2 L. destruct (history_mid _ _ _ _ _ _ H E1) as (m1 & m2 & A & B & C).
  assert (E2' : nth_error (skipn (S p) h) (q - S p) = Some e2) by (rewrite skipn_nth; replace (S p + (q - S p)) with q by lia; exact E2).
  destruct (history_mid _ _ _ _ _ _ C E2') as (m3 & m4 & D & F & _). exists m1, m2, m3, m4. repeat (split; [assumption|]).
  intros e He. destruct (firstn_in _ _ _ He) as (r & Hr & Er). rewrite skipn_nth in Er. exists (S p + r). split; [lia|exact Er].
Qed.

Lemma settled decay m s h answer p e : ordered decay m s h answer -> (forall q, In q (threads s) -> q = Done) -> nth_error h p = Some e ->
  exists j, answer p = Some j /\ exists v, nth_error (log s) j = Some (caller e, begun e, v).
Proof.
  intros (_ & A & _) D E. specialize (A p e E). destruct (answer p) as [j|].
  - exists j. split; [reflexivity|]. destruct A as (v & A & _). exists v. exact A.
  - destruct A as (q & Hq & Nq). destruct (Nq (D q Hq)).
Qed.
Lemma placed decay m s h answer j a b v : ordered decay m s h answer -> nth_error (log s) j = Some (a, b, v) -> whole a ->
  exists p, nth_error h p = Some (Took a b v) /\ answer p = Some j /\ p < length h.
Proof.
  intros (_ & _ & A & _) E W. destruct (A j a b v E W) as (p & Hp & U). exists p. assert (L : p < length h) by (apply nth_error_Some; congruence).
  split; [exact Hp|]. split; [apply (U p L); reflexivity|exact L].
Qed.
