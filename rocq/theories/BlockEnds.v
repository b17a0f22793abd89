(** Without deferred definitions every call comes to an end. *)
From Coq Require Import List Bool Arith Lia Wellfounded.
From Verif Require Import DeferModel RaceModel RaceSpec RaceProofs BlockSpec BlockProofs.
Import ListNotations.

Section Ends.
  Variables (L : layers) (defs : nat -> nat -> client) (depth : nat -> nat).

  Definition seen (l : loc) (v : val) : Prop :=
    okv L defs l v /\
    match l with
    | LDefer _ => opt v = None
    | LSelf i => forall k n o, v = VSelf k n (Some o) -> depth o < depth i
    | _ => True
    end.
  Definition fine (s : state) : Prop := layered L defs s /\ no_definition s /\ housed depth s.

  Lemma fine_seen s l : fine s -> seen l (mem s l).
  Proof.
    intros (A & B & C). split; [apply layered_ok; exact A|]. destruct l; try exact I; [exact (C i)|apply B].
  Qed.

  (** What may come next, whatever the other threads do. *)
  Inductive follows : prog -> prog -> Prop :=
  | F_lock g m p : follows p (Lock g m p)
  | F_unlock g m p : follows p (Unlock g m p)
  | F_load l k v : seen l v -> follows (k v) (Load l k)
  | F_store l v p : seen l v -> follows p (Store l v p)
  | F_alloc l v p : seen l v -> follows p (Alloc l v p)
  | F_atomic a f k v : oka L a v -> oka L a (f v) -> follows (k v) (Atomic a f k)
  | F_new k n : follows (k n) (New k)
  | F_sub q k : follows (unfold defs q k) (Sub q k)
  | F_mark k n : follows (k n) (Mark k)
  | F_note a b v p : follows p (Note a b v p).

  Definition halts (p : prog) : Prop := Acc follows p.

  Lemma halts_done : halts Done. Proof. constructor. intros p H. inversion H. Qed.
  Lemma halts_crash : halts Crash. Proof. constructor. intros p H. inversion H. Qed.
  Lemma halts_lock g m p : halts p -> halts (Lock g m p). Proof. intro P. constructor. intros q H. inversion H. subst. exact P. Qed.
  Lemma halts_unlock g m p : halts p -> halts (Unlock g m p). Proof. intro P. constructor. intros q H. inversion H. subst. exact P. Qed.
  Lemma halts_load l k : (forall v, seen l v -> halts (k v)) -> halts (Load l k).
  Proof. intro P. constructor. intros q H. inversion H. subst. apply P. assumption. Qed.
  Lemma halts_store l v p : (seen l v -> halts p) -> halts (Store l v p).
  Proof. intro P. constructor. intros q H. inversion H. subst. apply P. assumption. Qed.
  Lemma halts_alloc l v p : (seen l v -> halts p) -> halts (Alloc l v p).
  Proof. intro P. constructor. intros q H. inversion H. subst. apply P. assumption. Qed.
  Lemma halts_atomic a f k : (forall v, oka L a v -> oka L a (f v) -> halts (k v)) -> halts (Atomic a f k).
  Proof. intro P. constructor. intros q H. inversion H. subst. apply P; assumption. Qed.
  Lemma halts_new k : (forall n, halts (k n)) -> halts (New k). Proof. intro P. constructor. intros q H. inversion H. apply P. Qed.
  Lemma halts_mark k : (forall n, halts (k n)) -> halts (Mark k). Proof. intro P. constructor. intros q H. inversion H. apply P. Qed.
  Lemma halts_note a b v p : halts p -> halts (Note a b v p). Proof. intro P. constructor. intros q H. inversion H. subst. exact P. Qed.
  Lemma halts_sub q k : halts (unfold defs q k) -> halts (Sub q k).
  Proof. intro P. constructor. intros p H. inversion H. subst. exact P. Qed.

  Lemma check_halts c p : halts p -> halts (check c p).
  Proof. intro P. apply halts_load. intros v [_ E]. rewrite E. exact P. Qed.
  Lemma check_list_halts x p : halts p -> halts (check_list x p).
  Proof.
    intro P. destruct x; [|exact P]. apply halts_load. intros v _. destruct v; try exact P. destruct k; try exact P; apply check_halts; exact P.
  Qed.
  Lemma look_halts g l k : (forall v, okv L defs l v -> halts (k v)) -> halts (look g l k).
  Proof. intro P. apply halts_lock. apply halts_load. intros v [Hv _]. apply halts_unlock. exact (P v Hv). Qed.
  Lemma each_halts g l body finish todo : (forall r more, In r todo -> halts more -> halts (body r more)) -> halts finish ->
    halts (each g l todo body finish).
  Proof.
    intros B F. induction todo as [|r todo IH]; cbn [each]; [apply halts_unlock; exact F|].
    apply halts_load. intros _ _. apply B; [left; reflexivity|]. apply IH. intros r' more Hr. apply B. right. exact Hr.
  Qed.
  Lemma for_each_halts g l body finish :
    (forall v r more, okv L defs l v -> In r (rows v) -> halts more -> halts (body r more)) -> halts finish -> halts (for_each g l body finish).
  Proof.
    intros B F. apply halts_lock. apply halts_load. intros v [Hv _]. apply each_halts; [|exact F].
    intros r more Hr. exact (B v r more Hv Hr).
  Qed.
  Lemma item_halts c k n q : (forall v, halts (q v)) -> halts (item c k n q).
  Proof. intro Q. apply check_halts. destruct (n =? 0); [apply Q|]. apply look_halts. intros v _. apply Q. Qed.
  Lemma find_method_halts c k n q : (forall v, halts (q v)) -> halts (find_method c k n q).
  Proof. intro Q. apply check_halts. apply look_halts. intros v _. apply Q. Qed.
  Lemma add_item_halts c k n i q : (forall b, halts (q b)) -> halts (add_item c k n i q).
  Proof.
    intro Q. apply halts_lock. apply halts_load. intros v _. destruct (assoc n (rows v)); [apply halts_unlock; apply Q|].
    apply halts_store. intros _. apply halts_unlock. apply Q.
  Qed.
  Lemma add_row_halts g l n x p : halts p -> halts (add_row g l n x p).
  Proof.
    intro P. apply halts_lock. apply halts_load. intros v _. destruct (assoc n (rows v)); [apply halts_unlock; exact P|].
    apply halts_store. intros _. apply halts_unlock. exact P.
  Qed.
  Lemma decays_halts a b no k : halts no -> (forall e, halts (k e)) -> halts (decays a b no k).
  Proof. intros N K. unfold decays. destruct (_ || _); [exact N|]. apply halts_load. intros x _. apply halts_load. intros y _. apply K. Qed.

  Lemma qual_halts d : forall i k, depth i < d -> (forall v, halts (k v)) -> halts (Sub (SQual i) k).
  Proof.
    induction d as [|d IH]; intros i k Hd K; [lia|]. apply halts_sub. cbn [unfold]. apply halts_load. intros v _.
    assert (R : halts (Load (LQual i) k)) by (apply halts_load; intros w _; apply K).
    destruct (path v); [|exact R]. apply halts_load. intros s [_ Hs].
    assert (N : halts (Store (LQual i) (VPath []) (Load (LQual i) k))) by (apply halts_store; intros _; exact R).
    destruct s as [| | | | | | |kd n o| |]; try exact N. destruct o as [o|]; [|exact N].
    apply IH; [specialize (Hs kd n o eq_refl); lia|]. intro w. apply halts_store. intros _. exact R.
  Qed.

  Lemma base_lower c v t b v' d : okv L defs (LBases c) v -> In (t, b) (rows v) -> oka L (AMeta t) v' -> opt v' = Some d -> bases L d < bases L c.
  Proof. intros Hv Hr Hv' E. specialize (Hv t b Hr). destruct (Hv' d E) as [X _]. lia. Qed.

  Lemma member_halts d : forall kd c n k, bases L c < d -> (forall v, halts (k v)) -> halts (Sub (SMember kd c n) k).
  Proof.
    induction d as [|d IH]; intros kd c n k Hd K; [lia|]. apply halts_sub. cbn [unfold]. apply find_method_halts. intro v.
    destruct (opt v); [apply K|]. apply halts_load. intros s _. destruct s as [| | | | | | |kd' n' o| |]; try apply K.
    destruct kd'; try apply K. apply for_each_halts; [|apply K]. intros w [t b] more Hw Hr Hm. apply halts_atomic. intros v' Hv' _.
    cbn [fst] in *. destruct (opt v') as [e|] eqn:E; [|apply halts_crash]. pose proof (base_lower _ _ _ _ _ _ Hw Hr Hv' E).
    apply IH; [lia|]. intro u. destruct (opt u); [apply halts_unlock; apply K|exact Hm].
  Qed.
  Lemma inherited_halts d : forall c b k, bases L c < d -> (forall v, halts (k v)) -> halts (Sub (SInherited c b) k).
  Proof.
    induction d as [|d IH]; intros c b0 k Hd K; [lia|]. apply halts_sub. cbn [unfold]. destruct (c =? b0); [apply K|].
    apply check_halts. apply for_each_halts; [|apply K]. intros w [t b] more Hw Hr Hm. apply halts_atomic. intros v' Hv' _.
    cbn [fst] in *. destruct (opt v') as [e|] eqn:E; [|apply halts_crash]. pose proof (base_lower _ _ _ _ _ _ Hw Hr Hv' E).
    apply IH; [lia|]. intro u. destruct (flag u); [apply halts_unlock; apply K|exact Hm].
  Qed.
  Lemma cast_halts d : forall c b k, bases L c < d -> (forall v, halts (k v)) -> halts (Sub (SCast c b) k).
  Proof.
    induction d as [|d IH]; intros c b0 k Hd K; [lia|]. apply halts_sub. cbn [unfold]. destruct (c =? b0); [apply K|].
    apply check_halts. apply for_each_halts; [|apply K]. intros w [t b] more Hw Hr Hm. apply halts_atomic. intros v' Hv' _.
    cbn [fst] in *. destruct (opt v') as [e|] eqn:E; [|apply halts_crash]. pose proof (base_lower _ _ _ _ _ _ Hw Hr Hv' E).
    apply (inherited_halts (S (bases L e))); [lia|]. intro u. destruct (flag u); [|exact Hm].
    apply IH; [lia|]. intro x. apply halts_unlock. apply K.
  Qed.
  Lemma force_halts d : forall c k, items L c < d -> (forall v, halts (k v)) -> halts (Sub (SForce c) k).
  Proof.
    induction d as [|d IH]; intros c k Hd K; [lia|]. apply halts_sub. cbn [unfold]. apply check_halts.
    apply for_each_halts.
    - intros v [n i] more Hv Hr Hm. apply IH; [specialize (Hv n i Hr); unfold lower in Hv; cbn [snd]; lia|]. intros _. exact Hm.
    - apply for_each_halts; [|apply K]. intros v [n i] more Hv Hr Hm. apply IH; [specialize (Hv n i Hr); unfold lower in Hv; cbn [snd]; lia|].
      intros _. exact Hm.
  Qed.

  Lemma search_halts k c n q : (forall v, halts (q v)) -> halts (search k c n q).
  Proof.
    intro Q. destruct k; cbn [search]; try (apply item_halts; exact Q); try (apply find_method_halts; exact Q);
      apply (member_halts (S (bases L c))); try lia; exact Q.
  Qed.
  Lemma create_halts k c n q : (forall v, halts (q v)) -> halts (create k c n q).
  Proof.
    intro Q. unfold create. destruct (_ && _); [apply Q|]. apply search_halts. intro v. destruct (opt v); [apply Q|].
    apply halts_new. intro i. apply halts_alloc. intros _. apply add_item_halts. intros [|]; [apply Q|apply search_halts; exact Q].
  Qed.
  Lemma create_class_halts c n t q : (forall v, halts (q v)) -> halts (create_class c n t q).
  Proof.
    intro Q. apply item_halts. intro v. destruct (opt v); [apply Q|]. destruct (t =? 0); [apply Q|].
    apply halts_atomic. intros m _ _. destruct (opt m).
    - apply halts_atomic. intros m' _ _. destruct (opt m') as [j|]; [|apply halts_crash]. apply (qual_halts (S (depth j))); [lia|]. intros _. apply Q.
    - apply halts_new. intro i. apply halts_alloc. intros _. apply add_item_halts. intros [|]; [|apply item_halts; exact Q].
      apply halts_atomic. intros _ _ _. apply Q.
  Qed.

  Lemma den_halts :
    (forall c q, (forall b, halts (q b)) -> halts (den c q)) /\ (forall a q, (forall v, halts (q v)) -> halts (den_api a q)).
  Proof.
    apply client_api_ind; cbn [den den_api].
    - intros r q Q. apply Q.
    - intros a IHa k IHk q Q. apply halts_mark. intro b. apply IHa. intro v. apply halts_note. apply IHk. exact Q.
    - intros n q Q. destruct (n =? 0); [apply Q|]. apply look_halts. intros v _. apply Q.
    - intros n d q Q. unfold add_type. destruct (n =? 0); [apply Q|]. apply halts_lock. apply halts_load. intros v _.
      destruct (assoc n (rows v)); [apply halts_unlock; apply Q|]. apply halts_new. intro t. apply halts_alloc. intros _. apply halts_store. intros _.
      apply halts_unlock. apply Q.
    - intros a b q Q. apply decays_halts; [apply Q|]. intro e. apply look_halts. intros v _. apply Q.
    - intros a b q Q. apply decays_halts; [apply Q|]. intro e. apply look_halts. intros v _. apply Q.
    - intros a b f q Q. apply decays_halts; [apply Q|]. intro e. apply halts_lock. apply halts_load. intros v _.
      destruct (conv_of e (convs v)); [apply halts_unlock; apply Q|]. apply halts_store. intros _. apply halts_unlock. apply Q.
    - intros a b q Q. apply decays_halts; [apply Q|]. intro e. apply halts_lock. apply halts_load. intros v _.
      apply halts_store. intros _. apply halts_unlock. apply Q.
    - intros t q Q. destruct (t =? 0); [apply Q|]. apply halts_atomic. intros v _ _. apply Q.
    - intros c n t q Q. apply create_class_halts. exact Q.
    - intros k c n q Q. apply create_halts. exact Q.
    - intros c k q Q. apply check_halts. apply look_halts. intros v _. apply Q.
    - intros c k i q Q. apply check_halts. apply look_halts. intros v _. apply Q.
    - intros c k n q Q. apply item_halts. exact Q.
    - intros k c n q Q. destruct (n =? 0); [apply Q|]. apply (member_halts (S (bases L c))); [lia|exact Q].
    - intros c n q Q. apply find_method_halts. exact Q.
    - intros c f IHf q Q. apply check_halts. apply for_each_halts; [|apply Q]. intros v r more _ _ Hm. apply IHf.
      intros [|]; [exact Hm|apply halts_unlock; apply Q].
    - intros c f IHf q Q. apply check_halts. apply for_each_halts; [|apply Q]. intros v r more _ _ Hm. apply IHf.
      intros [|]; [exact Hm|apply halts_unlock; apply Q].
    - intros c q Q. apply check_halts. apply look_halts. intros v _. apply Q.
    - intros c i q Q. apply check_halts. apply look_halts. intros v _. destruct (nth_error (rows v) i); [|apply Q].
      apply halts_atomic. intros _ _ _. apply Q.
    - intros c q Q. apply check_halts. apply look_halts. intros v _. apply Q.
    - intros c i q Q. apply check_halts. apply look_halts. intros v _. destruct (nth_error (rows v) i); apply Q.
    - intros c t q Q. unfold add_base. destruct (t =? 0); [apply Q|]. apply halts_atomic. intros m _ _. destruct (opt m); [|apply Q].
      apply add_row_halts. apply add_row_halts. apply Q.
    - intros c b q Q. apply (inherited_halts (S (bases L c))); [lia|exact Q].
    - intros c b q Q. apply (cast_halts (S (bases L c))); [lia|exact Q].
    - intros i q Q. apply (qual_halts (S (depth i))); [lia|exact Q].
    - intros x q Q. apply check_list_halts. apply look_halts. intros v _. apply Q.
    - intros x i q Q. apply check_list_halts. apply look_halts. intros v _. apply Q.
    - intros x n q Q. apply check_list_halts. destruct (n =? 0); [apply Q|]. apply look_halts. intros v _. apply Q.
    - intros x i q Q. apply check_list_halts. apply look_halts. intros v _. apply Q.
    - intros x f IHf q Q. apply check_list_halts. apply for_each_halts; [|apply Q]. intros v r more _ _ Hm. apply IHf.
      intros [|]; [exact Hm|apply halts_unlock; apply Q].
    - intros x n v q Q. unfold set_value. destruct (n =? 0); [apply Q|]. apply halts_lock. apply halts_load. intros w _.
      destruct (assoc n (rows w)).
      + apply halts_store. intros _. apply halts_unlock. apply Q.
      + apply halts_alloc. intros _. apply halts_store. intros _. apply halts_unlock. apply Q.
    - intros r q Q. destruct r as [[x n]|]; [|apply Q]. apply halts_load. intros v _. apply Q.
    - intros c d q Q. apply halts_load. intros v _. destruct (opt v).
      + apply (qual_halts (S (depth c))); [lia|]. intros _. apply Q.
      + apply halts_store. intros _. apply Q.
    - intros c q Q. apply (force_halts (S (items L c))); [lia|exact Q].
  Qed.

  (** ** All threads together *)

  Definition moves (l' l : list prog) : Prop := exists i p p', nth_error l i = Some p /\ follows p' p /\ l' = put l i p'.

  Lemma moves_acc l : (forall p, In p l -> halts p) -> Acc moves l.
  Proof.
    induction l as [|a l IH]; intro H.
    - constructor. intros l' (i & p & p' & E & _). destruct i; discriminate.
    - pose proof (H a (or_introl eq_refl)) as Ha. pose proof (IH (fun p Hp => H p (or_intror Hp))) as Hl. clear IH H.
      revert l Hl. induction Ha as [a _ IHa]. intros l Hl. pose proof Hl as Hl0. induction Hl as [l _ IHl].
      constructor. intros l' (i & p & p' & E & F & ->). destruct i as [|i]; cbn [put nth_error] in *.
      + injection E as <-. apply IHa; assumption.
      + apply IHl; [|apply (Acc_inv Hl0)]; exists i, p, p'; tauto.
  Qed.

  Lemma put_id {A} (l : list A) i x : nth_error l i = Some x -> put l i x = l.
  Proof. revert i. induction l as [|a l IH]; intros [|i] E; cbn in *; try discriminate; [injection E as ->; reflexivity|]. f_equal. apply IH. exact E. Qed.

  Lemma turn_moves s i : fine s -> fine (turn defs s i) ->
    (turn defs s i = s /\ ~ can_go false s i) \/ moves (threads (turn defs s i)) (threads s).
  Proof.
    intros F F'.
    assert (Mv : forall p p', nth_error (threads s) i = Some p -> follows p' p -> moves (put (threads s) i p') (threads s))
      by (intros p p' Hp Hf; exists i, p, p'; tauto).
    pose proof (fun l => fine_seen _ l F') as V'. pose proof (proj2 (layered_ok L defs _ (proj1 F'))) as A'.
    pose proof (fun l => fine_seen _ l F) as V. pose proof (proj2 (layered_ok L defs _ (proj1 F))) as A.
    unfold turn in *. destruct (nth_error (threads s) i) as [p|] eqn:Hp.
    2:{ left. split; [reflexivity|]. intros (p & E & _). congruence. }
    assert (Stay : forall q, q = p -> State (mem s) (atom s) (held s) (next s) (put (threads s) i q) (log s) = s).
    { intros q ->. rewrite put_id by exact Hp. destruct s. reflexivity. }
    destruct p as [| |g m q|g m q|l k|l v q|l v q|a f k|k|sb k|k|a b v q]; cbn [step mem atom held next threads log] in *.
    - left. split; [apply Stay; reflexivity|]. intros (p & E & N & _). congruence.
    - left. split; [apply Stay; reflexivity|]. intros (p & E & _ & N & _). congruence.
    - destruct (free s g m) eqn:Fr; cbn [mem atom held next threads log].
      + right. exact (Mv _ _ eq_refl (F_lock g m q)).
      + left. split; [apply Stay; reflexivity|]. intros (p & E & _ & _ & C). rewrite Hp in E. injection E as <-.
        destruct (C g m eq_refl) as [X _]. apply free_available in X. congruence.
    - right. exact (Mv _ _ eq_refl (F_unlock g m q)).
    - right. exact (Mv _ _ eq_refl (F_load l k _ (V l))).
    - right. refine (Mv _ _ eq_refl (F_store l v q _)). pose proof (V' l) as X. rewrite loc_beq_refl in X. exact X.
    - right. refine (Mv _ _ eq_refl (F_alloc l v q _)). pose proof (V' l) as X. rewrite loc_beq_refl in X. exact X.
    - right. refine (Mv _ _ eq_refl (F_atomic a f k _ (A a) _)). pose proof (A' a) as X.
      replace (aloc_beq a a) with true in X by (symmetry; apply internal_aloc_dec_lb; reflexivity). exact X.
    - right. exact (Mv _ _ eq_refl (F_new k _)).
    - right. exact (Mv _ _ eq_refl (F_sub sb k)).
    - right. exact (Mv _ _ eq_refl (F_mark k _)).
    - right. exact (Mv _ _ eq_refl (F_note a b v q)).
  Qed.

  Definition ended (s : state) : Prop := (forall p, In p (threads s) -> p = Done) \/ In Crash (threads s).

  Lemma ended_dec l : {(forall p, In p l -> p = Done) \/ In Crash l} +
    {(exists i p, nth_error l i = Some p /\ p <> Done) /\ forall i, nth_error l i <> Some Crash}.
  Proof.
    induction l as [|a l IH]; [left; left; intros p []|]. destruct IH as [D|N].
    - assert (X : a = Done \/ a = Crash \/ (a <> Done /\ a <> Crash)) by (destruct a; auto; right; right; split; discriminate).
      assert (Y : {a = Done} + {a = Crash} + {a <> Done /\ a <> Crash}) by (destruct a; auto; right; split; discriminate).
      clear X. destruct Y as [[->| ->]|[N1 N2]].
      + left. destruct D as [D|C]; [left; intros p [<-|Hp]; [reflexivity|exact (D p Hp)]|right; right; exact C].
      + left. right. left. reflexivity.
      + assert (Z : {In Crash l} + {~ In Crash l}).
        { clear. induction l as [|b l IH]; [right; intros []|]. destruct IH as [H|H]; [left; right; exact H|].
          assert (Y : {b = Crash} + {b <> Crash}) by (destruct b; (left; reflexivity) || (right; discriminate)).
          destruct Y as [->|N]; [left; left; reflexivity|]. right. intros [E|E]; [congruence|exact (H E)]. }
        destruct Z as [Z|Z]; [left; right; right; exact Z|]. right. split; [exists 0, a; split; [reflexivity|exact N1]|].
        intros [|i] E; cbn in E; [congruence|]. apply Z. exact (nth_error_In _ _ E).
    - assert (Y : {a = Crash} + {a <> Crash}) by (destruct a; (left; reflexivity) || (right; discriminate)).
      destruct Y as [->|Na]; [left; right; left; reflexivity|]. right. destruct N as [(i & p & E & Hp) C].
      split; [exists (S i), p; split; [exact E|exact Hp]|]. intros [|j] Ej; cbn in Ej; [congruence|exact (C j Ej)].
  Qed.

  Variables (s0 : state) (f : nat -> nat).
  Let st (n : nat) : state := exec defs s0 (upto f n).
  Hypotheses (Hfine : forall n, fine (st n)) (Htidy : forall n, tidy L defs (st n)) (Hfair : fair (length (threads s0)) f).

  Lemma st_succ n : st (S n) = turn defs (st n) (f n).
  Proof. unfold st, exec. cbn [upto]. rewrite fold_left_app. reflexivity. Qed.

  Lemma soon i d : forall n, f (n + d) = i -> can_go false (st n) i ->
    exists k, moves (threads (st (S k))) (threads (st k)) /\ threads (st k) = threads (st n).
  Proof.
    induction d as [|d IH]; intros n Hf Hg.
    - rewrite Nat.add_0_r in Hf. exists n. split; [|reflexivity]. rewrite st_succ, Hf.
      destruct (turn_moves (st n) i (Hfine n)) as [[_ N]|M]; [rewrite <- Hf, <- st_succ; apply Hfine|contradiction|exact M].
    - destruct (turn_moves (st n) (f n) (Hfine n)) as [[E _]|M]; [rewrite <- st_succ; apply Hfine| |].
      + rewrite <- st_succ in E. destruct (IH (S n)) as (k & M & Ek); [rewrite <- Hf; f_equal; lia|rewrite E; exact Hg|].
        exists k. split; [exact M|]. rewrite Ek, E. reflexivity.
      + exists n. split; [rewrite st_succ; exact M|reflexivity].
  Qed.

  Lemma turn_length s i : length (threads (turn defs s i)) = length (threads s).
  Proof.
    unfold turn. destruct (nth_error (threads s) i) as [p|]; [|reflexivity].
    destruct p; cbn [step]; try (destruct (free _ _ _)); cbn [threads]; apply put_len.
  Qed.
  Lemma st_length n : length (threads (st n)) = length (threads s0).
  Proof. induction n as [|n IH]; [reflexivity|]. rewrite st_succ, turn_length. exact IH. Qed.

  Lemma all_end : (forall p, In p (threads (st 0)) -> halts p) -> exists n, ended (st n).
  Proof.
    intro H. pose proof (moves_acc _ H) as A. remember (threads (st 0)) as l eqn:El.
    assert (G : forall l, Acc moves l -> forall n, threads (st n) = l -> exists m, ended (st m)).
    { clear l El H A. intros l A. induction A as [l _ IH]. intros n <-.
      destruct (ended_dec (threads (st n))) as [D|[U C]]; [exists n; exact D|].
      assert (Go : exists i, can_go false (st n) i).
      { destruct U as (i & p & Hp & Np). destruct (wants p) as [[g m]|] eqn:Ew.
        - destruct p as [| |g0 m0 p0| | | | | | | | | ]; try discriminate Ew. cbn in Ew. injection Ew as -> ->.
          apply (someone_goes L defs false (st n) (Htidy n) C (S (height L g)) g (Nat.lt_succ_diag_r _)). exists i, m, p0. exact Hp.
        - exists i, p. split; [exact Hp|]. split; [exact Np|]. split; [intros ->; exact (C i Hp)|]. intros g m E. congruence. }
      destruct Go as [i Hi]. destruct (Hfair i n) as (m & Hm & Ef).
      { rewrite <- (st_length n). destruct Hi as (p & Hp & _). apply nth_error_Some. congruence. }
      destruct (soon i (m - n) n) as (k & M & Ek); [replace (n + (m - n)) with m by lia; exact Ef|exact Hi|].
      rewrite Ek in M. apply (IH _ M (S k)). reflexivity. }
    exact (G l A 0 (eq_sym El)).
  Qed.
End Ends.
