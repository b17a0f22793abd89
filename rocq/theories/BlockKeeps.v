(** Orderly clients keep the registry in order. *)
From Coq Require Import List Bool Arith Lia.
From Verif Require Import DeferModel RaceModel RaceSpec RaceProofs BlockSpec BlockProofs.
Import ListNotations.

Section Keeps.
  Variables (L : layers) (defs : nat -> nat -> client) (n0 : nat).
  Hypothesis Hfresh : fresh L n0.
  (** With [quiet]: there are no definitions, and owners end somewhere. *)
  Variables (quiet : Prop) (depth : nat -> nat).
  Hypothesis Hdeep : quiet -> forall c i, 0 < items L c -> n0 <= i -> depth c < depth i.
  Definition ok (a : api) : Prop := orderly L defs a /\ (quiet -> ~ defers a).
  Definition obeys (c : client) : Prop := only (fun _ a => ok a) [] c.
  Definition house (l : loc) (v : val) : Prop :=
    quiet -> match l with
             | LSelf i => forall k n o, v = VSelf k n (Some o) -> depth o < depth i
             | LDefer _ => opt v = None
             | _ => True
             end.
  Hypothesis Hdefs : forall d c, quiet \/ obeys (defs d c).

  (** Whatever is written is in order. *)
  Fixpoint keep (p : prog) : Prop :=
    match p with
    | Done | Crash => True
    | Lock _ _ p' | Unlock _ _ p' | Note _ _ _ p' => keep p'
    | Load l k => forall v, okv L defs l v -> house l v -> keep (k v)
    | Store l v p' | Alloc l v p' => okv L defs l v /\ house l v /\ keep p'
    | Atomic a f k => forall v, oka L a v -> oka L a (f v) /\ keep (k v)
    | New k => forall i, n0 <= i -> keep (k i)
    | Sub q k => match q with SRun d c => obeys (defs d c) | _ => True end /\ forall v, keep (k v)
    | Mark k => forall b, keep (k b)
    end.

  Lemma check_keep c p : keep p -> keep (check c p).
  Proof.
    intro P. unfold check. cbn [keep]. intros v _ _. destruct (opt v); [|exact P]. intros old _. split; [exact I|].
    destruct (flag old); [exact P|]. cbn [keep]. intros w _ Hw. destruct (opt w) as [d|] eqn:E; [|exact I]. split.
    - destruct (Hdefs d c) as [Qt|O]; [|exact O]. cbn in Hw. specialize (Hw Qt). congruence.
    - intros _. split; [intros d' [=]|]. split; [intros _; reflexivity|]. intros x _. split; [exact I|exact P].
  Qed.
  Lemma check_list_keep x p : keep p -> keep (check_list x p).
  Proof.
    intro P. destruct x; [|exact P]. cbn [check_list keep check_item]. intros v _ _. destruct v; try exact P.
    destruct k; try exact P; apply check_keep; exact P.
  Qed.
  Lemma free_house l v : (forall i, l <> LSelf i) -> (forall c, l <> LDefer c) -> house l v.
  Proof. intros A B _. destruct l; try exact I; [destruct (A i eq_refl)|destruct (B c eq_refl)]. Qed.
  Lemma look_keep g l k : (forall v, keep (k v)) -> keep (look g l k).
  Proof. intros K v _ _. apply K. Qed.
  Lemma each_keep g l body finish todo : (forall r more, keep more -> keep (body r more)) -> keep finish ->
    keep (each g l todo body finish).
  Proof. intros B F. induction todo as [|r todo IH]; cbn [each keep]; [exact F|]. intros _ _ _. apply B. exact IH. Qed.
  Lemma for_each_keep g l body finish : (forall r more, keep more -> keep (body r more)) -> keep finish ->
    keep (for_each g l body finish).
  Proof. intros B F v _ _. apply each_keep; assumption. Qed.
  Lemma item_keep c k n q : (forall v, keep (q v)) -> keep (item c k n q).
  Proof. intro Q. apply check_keep. destruct (n =? 0); [apply Q|]. apply look_keep. intro v. apply Q. Qed.
  Lemma find_method_keep c k n q : (forall v, keep (q v)) -> keep (find_method c k n q).
  Proof. intro Q. apply check_keep. apply look_keep. intro v. apply Q. Qed.
  Lemma search_keep k c n q : (forall v, keep (q v)) -> keep (search k c n q).
  Proof. intro Q. destruct k; cbn [search keep]; try (apply item_keep; exact Q); try (apply find_method_keep; exact Q); (split; [exact I|exact Q]). Qed.
  Lemma add_item_keep c k n i q : n0 <= i -> 0 < items L c -> (forall b, keep (q b)) -> keep (add_item c k n i q).
  Proof.
    intros Hi Hc Q. unfold add_item. cbn [keep]. intros v Hv _. destruct (assoc n (rows v)); [apply Q|]. cbn [keep]. split; [|split; [intros _; exact I|apply Q]].
    intros n' i' Hin. cbn [rows] in Hin. apply in_app_or in Hin. destruct Hin as [Hin|[[= <- <-]|[]]]; [exact (Hv n' i' Hin)|].
    destruct (Hfresh i Hi) as (A & _ & B). unfold lower. lia.
  Qed.
  Lemma create_keep k c n q : 0 < items L c -> (forall v, keep (q v)) -> keep (create k c n q).
  Proof.
    intros Hc Q. unfold create. destruct (_ && _); [apply Q|]. apply search_keep. intro v. destruct (opt v); [apply Q|].
    cbn [keep]. intros i Hi. split; [exact I|]. split; [intros Qt kd n' o [= _ _ <-]; exact (Hdeep Qt c i Hc Hi)|].
    apply add_item_keep; [exact Hi|exact Hc|]. intros [|]; [apply Q|apply search_keep; exact Q].
  Qed.
  Lemma create_class_keep c n t q : 0 < items L c -> (forall v, keep (q v)) -> keep (create_class c n t q).
  Proof.
    intros Hc Q. apply item_keep. intro v. destruct (opt v); [apply Q|]. destruct (t =? 0); [apply Q|]. cbn [keep].
    intros m Hm. split; [exact Hm|]. destruct (opt m).
    - cbn [keep]. intros m' Hm'. split; [exact Hm'|]. destruct (opt m'); [|exact I]. split; [exact I|]. intros _. apply Q.
    - cbn [keep]. intros i Hi. split; [exact I|]. split; [intros Qt kd n' o [= _ _ <-]; exact (Hdeep Qt c i Hc Hi)|].
      apply add_item_keep; [exact Hi|exact Hc|]. intros [|]; [|apply item_keep; exact Q].
      cbn [keep]. intros x _. split; [|apply Q]. cbn [oka opt]. intros d [= <-]. destruct (Hfresh i Hi) as (A & B & C). specialize (B t). unfold lower. lia.
  Qed.
  Lemma decays_keep a b no k : keep no -> (forall e, keep (k e)) -> keep (decays a b no k).
  Proof. intros N K. unfold decays. destruct (_ || _); [exact N|]. intros x _ _ y _ _. apply K. Qed.

  Lemma den_keep :
    (forall c w q, only (fun _ a => ok a) w c -> (forall b, keep (q b)) -> keep (den c q)) /\
    (forall a w q, only_api (fun _ a => ok a) w a -> (forall v, keep (q v)) -> keep (den_api a q)).
  Proof.
    apply client_api_ind; cbn [den den_api].
    - intros r w q _ Q. apply Q.
    - intros a IHa k IHk w q [Ha Hk] Q. cbn [keep]. intro b. apply (IHa w); [exact Ha|]. intro v. cbn [keep]. exact (IHk v w _ (Hk v) Q).
    - intros n w q _ Q. destruct (n =? 0); [apply Q|]. apply look_keep. intro v. apply Q.
    - intros n d w q _ Q. unfold add_type. destruct (n =? 0); [apply Q|]. cbn [keep]. intros v _ _. destruct (assoc n (rows v)); [apply Q|].
      cbn [keep]. intros t _. split; [exact I|]. split; [intros _; exact I|]. split; [exact I|]. split; [intros _; exact I|]. apply Q.
    - intros a b w q _ Q. apply decays_keep; [apply Q|]. intro e. apply look_keep. intro v. apply Q.
    - intros a b w q _ Q. apply decays_keep; [apply Q|]. intro e. apply look_keep. intro v. apply Q.
    - intros a b f w q _ Q. apply decays_keep; [apply Q|]. intro e. cbn [keep]. intros v _ _. destruct (conv_of e (convs v)); [apply Q|].
      cbn [keep]. split; [exact I|]. split; [intros _; exact I|apply Q].
    - intros a b w q _ Q. apply decays_keep; [apply Q|]. intro e. cbn [keep]. intros v _ _. split; [exact I|]. split; [intros _; exact I|apply Q].
    - intros t w q _ Q. destruct (t =? 0); [apply Q|]. intros v Hv. split; [exact Hv|apply Q].
    - intros c n t w q [[O _] _] Q. apply create_class_keep; [exact O|exact Q].
    - intros k c n w q [[O _] _] Q. apply create_keep; [exact O|exact Q].
    - intros c k w q _ Q. apply check_keep. apply look_keep. intro v. apply Q.
    - intros c k i w q _ Q. apply check_keep. apply look_keep. intro v. apply Q.
    - intros c k n w q _ Q. apply item_keep. exact Q.
    - intros k c n w q _ Q. destruct (n =? 0); [apply Q|]. split; [exact I|exact Q].
    - intros c n w q _ Q. apply find_method_keep. exact Q.
    - intros c f IHf w q [_ O] Q. apply check_keep. apply for_each_keep; [|apply Q]. intros r more Hm. apply (IHf (snd r) w); [apply O|].
      intros [|]; [exact Hm|apply Q].
    - intros c f IHf w q [_ O] Q. apply check_keep. apply for_each_keep; [|apply Q]. intros r more Hm. apply (IHf (snd r) w); [apply O|].
      intros [|]; [exact Hm|apply Q].
    - intros c w q _ Q. apply check_keep. apply look_keep. intro v. apply Q.
    - intros c i w q _ Q. apply check_keep. apply look_keep. intro v. destruct (nth_error (rows v) i); [|apply Q].
      intros x Hx. split; [exact Hx|apply Q].
    - intros c w q _ Q. apply check_keep. apply look_keep. intro v. apply Q.
    - intros c i w q _ Q. apply check_keep. apply look_keep. intro v. destruct (nth_error (rows v) i); apply Q.
    - intros c t w q [[O _] _] Q. unfold add_base. destruct (t =? 0); [apply Q|]. intros m Hm. split; [exact Hm|]. destruct (opt m) as [b|]; [|apply Q].
      assert (D : keep (add_row (KDerived b) (LDerived b) c c (q VUnit))).
      { unfold add_row. cbn [keep]. intros v _ _. destruct (assoc c (rows v)); [apply Q|]. split; [exact I|]. split; [intros _; exact I|apply Q]. }
      unfold add_row at 1. cbn [keep]. intros v Hv _. destruct (assoc t (rows v)); [exact D|]. split; [|split; [intros _; exact I|exact D]].
      intros t' b' Hin. cbn [rows] in Hin. apply in_app_or in Hin. destruct Hin as [Hin|[[= <- <-]|[]]]; [exact (Hv t' b' Hin)|exact O].
    - intros c b w q _ Q. split; [exact I|exact Q].
    - intros c b w q _ Q. split; [exact I|exact Q].
    - intros i w q _ Q. split; [exact I|exact Q].
    - intros x w q _ Q. apply check_list_keep. apply look_keep. intro v. apply Q.
    - intros x i w q _ Q. apply check_list_keep. apply look_keep. intro v. apply Q.
    - intros x n w q _ Q. apply check_list_keep. destruct (n =? 0); [apply Q|]. apply look_keep. intro v. apply Q.
    - intros x i w q _ Q. apply check_list_keep. apply look_keep. intro v. apply Q.
    - intros x f IHf w q [_ O] Q. apply check_list_keep. apply for_each_keep; [|apply Q]. intros r more Hm.
      apply (IHf (fst r) (snd r) (x :: w)); [apply O|]. intros [|]; [exact Hm|apply Q].
    - intros x n v w q _ Q. unfold set_value. destruct (n =? 0); [apply Q|]. cbn [keep]. intros u _ _. destruct (assoc n (rows u)); cbn [keep].
      + split; [exact I|]. split; [intros _; exact I|apply Q].
      + split; [exact I|]. split; [intros _; exact I|]. split; [exact I|]. split; [intros _; exact I|]. apply Q.
    - intros r w q _ Q. destruct r as [[x n]|]; [|apply Q]. intros v _ _. apply Q.
    - intros c d w q [[O Nd] _] Q. cbn [keep]. intros v _ _. destruct (opt v); [split; [exact I|intros _; apply Q]|]. cbn [keep].
      split; [cbn [okv opt]; intros d' [= <-]; exact O|]. split; [intro Qt; destruct (Nd Qt I)|apply Q].
    - intros c w q _ Q. split; [exact I|exact Q].
  Qed.

  Lemma unfold_keep s q : match s with SRun d c => obeys (defs d c) | _ => True end -> (forall v, keep (q v)) -> keep (unfold defs s q).
  Proof.
    intros O Q. destruct s as [i|d c|k c n|c b|c b|c]; cbn [unfold].
    - cbn [keep]. intros v _ _. assert (R : keep (Load (LQual i) q)) by (intros w _ _; apply Q).
      destruct (path v); [|exact R]. cbn [keep]. intros s _ _.
      assert (N : keep (Store (LQual i) (VPath []) (Load (LQual i) q))) by (split; [exact I|]; split; [intros _; exact I|exact R]).
      destruct s as [| | | | | | |k n o| |]; try exact N. destruct o; [|exact N]. cbn [keep]. split; [exact I|]. intro w.
      split; [exact I|]. split; [intros _; exact I|exact R].
    - apply (proj1 den_keep (defs d c) []); [exact O|]. intros _. apply Q.
    - apply find_method_keep. intro v. destruct (opt v); [apply Q|]. cbn [keep]. intros s _ _.
      destruct s as [| | | | | | |k' n' o| |]; try apply Q. destruct k'; try apply Q. apply for_each_keep; [|apply Q].
      intros r more Hm. unfold direct_base. cbn [keep]. intros v' Hv'. split; [exact Hv'|]. destruct (opt v'); [|exact I]. cbn [keep].
      split; [exact I|]. intro w. destruct (opt w); [apply Q|exact Hm].
    - destruct (c =? b); [apply Q|]. apply check_keep. apply for_each_keep; [|apply Q].
      intros r more Hm. unfold direct_base. cbn [keep]. intros v' Hv'. split; [exact Hv'|]. destruct (opt v'); [|exact I]. cbn [keep].
      split; [exact I|]. intro w. destruct (flag w); [apply Q|exact Hm].
    - destruct (c =? b); [apply Q|]. apply check_keep. apply for_each_keep; [|apply Q].
      intros r more Hm. unfold direct_base. cbn [keep]. intros v' Hv'. split; [exact Hv'|]. destruct (opt v'); [|exact I]. cbn [keep].
      split; [exact I|]. intro w. destruct (flag w); [split; [exact I|]; intro u; apply Q|exact Hm].
    - apply check_keep. apply for_each_keep; [intros r more Hm; split; [exact I|intros _; exact Hm]|].
      apply for_each_keep; [intros r more Hm; split; [exact I|intros _; exact Hm]|]. apply Q.
  Qed.

  Record kept (s : state) : Prop := Kept {
    kept_layered : layered L defs s;
    kept_house : forall l, house l (mem s l);
    kept_next : n0 <= next s;
    kept_threads : forall p, In p (threads s) -> keep p
  }.

  Lemma ok_layered s : (forall l, okv L defs l (mem s l)) -> (forall a, oka L a (atom s a)) -> layered L defs s.
  Proof.
    intros V A. split; [|split; [|split]].
    - intros c k n i Hi. exact (V (LItems c k) n i Hi).
    - intros c t b Hb. exact (V (LBases c) t b Hb).
    - intros t d Hd. exact (A (AMeta t) d Hd).
    - intros c d Hd. exact (V (LDefer c) d Hd).
  Qed.

  Lemma put_in {A} (l : list A) i x y : In y (put l i x) -> y = x \/ In y l.
  Proof.
    revert i. induction l as [|a l IH]; intros [|i] Hy; cbn in *; try contradiction.
    - destruct Hy as [->|Hy]; tauto.
    - destruct Hy as [->|Hy]; [tauto|]. destruct (IH i Hy); tauto.
  Qed.

  Lemma turn_kept s i : kept s -> kept (turn defs s i).
  Proof.
    intros [Ly Ho Nx T]. unfold turn. destruct (nth_error (threads s) i) as [p|] eqn:Hp; [|constructor; assumption].
    pose proof (T p (nth_error_In _ _ Hp)) as P. pose proof (layered_ok L defs s Ly) as [V A].
    assert (Mk : forall m a h n lg p', (forall l, okv L defs l (m l)) -> (forall l, house l (m l)) -> (forall x, oka L x (a x)) -> n0 <= n -> keep p' ->
              kept (State m a h n (put (threads s) i p') lg)).
    { intros m a h n lg p' V' H' A' N' P'. constructor; cbn [next threads].
      - apply ok_layered; cbn [mem atom]; assumption.
      - exact H'.
      - exact N'.
      - intros q Hq. apply put_in in Hq. destruct Hq as [->|Hq]; [exact P'|exact (T q Hq)]. }
    assert (Wr : forall l v, okv L defs l v -> forall x, okv L defs x (if loc_beq x l then v else mem s x)).
    { intros l v Hv x. destruct (loc_beq x l) eqn:E; [apply loc_beq_eq in E; subst x; exact Hv|apply V]. }
    assert (Wh : forall l v, house l v -> forall x, house x (if loc_beq x l then v else mem s x)).
    { intros l v Hv x. destruct (loc_beq x l) eqn:E; [apply loc_beq_eq in E; subst x; exact Hv|apply Ho]. }
    destruct p as [| |g m q|g m q|l k|l v q|l v q|a f k|k|sb k|k|a b v q]; cbn [step keep] in *.
    - apply Mk; assumption.
    - apply Mk; assumption.
    - destruct (free s g m); cbn [mem atom held next threads log]; apply Mk; assumption.
    - apply Mk; assumption.
    - apply Mk; try assumption. apply P; [apply V|apply Ho].
    - destruct P as (P1 & P2 & P3). apply Mk; cbn [mem atom held next threads log]; try assumption; [apply Wr|apply Wh]; assumption.
    - destruct P as (P1 & P2 & P3). apply Mk; cbn [mem atom held next threads log]; try assumption; [apply Wr|apply Wh]; assumption.
    - destruct (P (atom s a) (A a)) as [P1 P2]. apply Mk; cbn [mem atom held next threads log]; try assumption.
      intro x. destruct (aloc_beq x a) eqn:E; [apply internal_aloc_dec_bl in E; subst x; exact P1|apply A].
    - apply Mk; cbn [mem atom held next threads log]; try assumption; [lia|]. apply P. exact Nx.
    - apply Mk; try assumption. destruct P as [P1 P2]. apply unfold_keep; assumption.
    - apply Mk; try assumption. apply P.
    - apply Mk; assumption.
  Qed.

  Lemma exec_kept sched : forall s, kept s -> kept (exec defs s sched).
  Proof. induction sched as [|i sched IH]; intros s K; [exact K|]. apply (IH (turn defs s i)). apply turn_kept. exact K. Qed.

  Lemma start_kept m a clients : layered L defs (start m a n0 clients) -> (forall l, house l (m l)) ->
    (forall c, In c clients -> obeys c) -> kept (start m a n0 clients).
  Proof.
    intros Ly Ho O. constructor; [exact Ly|exact Ho|cbn; lia|]. cbn [start threads]. intros p Hp. apply in_map_iff in Hp. destruct Hp as (c & <- & Hc).
    apply (proj1 den_keep c []); [apply O; exact Hc|]. intros _. exact I.
  Qed.
End Keeps.
