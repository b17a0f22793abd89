(** Without deferred definitions no null pointer is dereferenced: the bases of classes are registered, for ever. *)
From Coq Require Import List Bool Arith Lia.
From Verif Require Import DeferModel RaceModel RaceSpec RaceProofs BlockSpec BlockProofs BlockKeeps.
Import ListNotations.

Section Safe.
  Variable defs : nat -> nat -> client.

  (** [K]: types known to be of a class. *)
  Fixpoint safe (K : list nat) (p : prog) : Prop :=
    match p with
    | Done => True
    | Crash => False
    | Lock _ _ p' | Unlock _ _ p' | Note _ _ _ p' => safe K p'
    | Load l k => forall v, match l with LDefer _ => opt v = None | _ => True end ->
                    safe (match l with LBases _ => map fst (rows v) ++ K | _ => K end) (k v)
    | Store l v p' => match l with LBases _ => incl (map fst (rows v)) K | LDefer _ => opt v = None | _ => True end /\ safe K p'
    | Alloc l v p' => match l with LBases _ | LDefer _ => False | _ => True end /\ safe K p'
    | Atomic a f k =>
        match a with
        | AMeta t => forall v, (In t K -> opt v <> None) -> (opt v <> None -> opt (f v) <> None) /\
                       safe (match opt v with Some _ => t :: K | None => K end) (k v)
        | AFlag _ => forall v, safe K (k v)
        end
    | New k => forall i, safe K (k i)
    | Sub q k => match q with SRun _ _ => False | _ => True end /\ forall v, safe K (k v)
    | Mark k => forall b, safe K (k b)
    end.

  Lemma safe_more p : forall K K', incl K K' -> safe K p -> safe K' p.
  Proof.
    induction p as [| |g m p IH|g m p IH|l k IH|l v p IH|l v p IH|a f k IH|k IH|q k IH|k IH|a b v p IH]; intros K K' I; cbn [safe].
    - exact (fun x => x).
    - exact (fun x => x).
    - apply IH. exact I.
    - apply IH. exact I.
    - intros H v Hv. refine (IH v _ _ _ (H v Hv)). destruct l; try exact I. apply incl_app; [apply incl_appl, incl_refl|apply incl_appr; exact I].
    - intros [A B]. split; [|exact (IH K K' I B)]. destruct l; try exact A. exact (incl_tran A I).
    - intros [A B]. split; [exact A|exact (IH K K' I B)].
    - destruct a as [t|c]; [|intros H v; exact (IH v K K' I (H v))]. intros H v Hv.
      destruct (H v (fun Ht => Hv (I t Ht))) as [A B]. split; [exact A|]. refine (IH v _ _ _ B). destruct (opt v); [|exact I].
      intros x [<-|Hx]; [left; reflexivity|right; apply I; exact Hx].
    - intros H i. exact (IH i K K' I (H i)).
    - intros [A H]. split; [exact A|]. intro v. exact (IH v K K' I (H v)).
    - intros H b. exact (IH b K K' I (H b)).
    - apply IH. exact I.
  Qed.
  Lemma safe_cons t K p : safe K p -> safe (t :: K) p.
  Proof. apply safe_more. intros x Hx. right. exact Hx. Qed.
  Lemma safe_app l K p : safe K p -> safe (l ++ K) p.
  Proof. apply safe_more. apply incl_appr. apply incl_refl. Qed.

  (** A look at the class of a type that is not known of. *)
  Lemma peek K t f k : (forall v, opt v <> None -> opt (f v) <> None) -> (forall v, safe K (k v)) -> safe K (Atomic (AMeta t) f k).
  Proof. intros F H v _. split; [apply F|]. destruct (opt v); [apply safe_cons|]; apply H. Qed.

  Lemma check_safe K c p : safe K p -> safe K (check c p).
  Proof. intros P. unfold check. cbn [safe]. intros v ->. exact P. Qed.
  Lemma check_list_safe K x p : safe K p -> safe K (check_list x p).
  Proof.
    intro P. destruct x; [|exact P]. cbn [check_list check_item safe]. intros v _. destruct v; try exact P.
    destruct k; try exact P; apply check_safe; exact P.
  Qed.
  Lemma look_safe K g l k : (forall c, l <> LDefer c) -> (forall v, safe K (k v)) -> safe K (look g l k).
  Proof. intros N H. unfold look. cbn [safe]. intros v _. destruct l; try apply H; try (apply safe_app; apply H). Qed.
  Lemma each_safe K g l body finish todo : (forall c, l <> LDefer c) ->
    (forall r more, In r todo -> safe K more -> safe K (body r more)) -> safe K finish -> safe K (each g l todo body finish).
  Proof.
    intros N B F. induction todo as [|r todo IH]; cbn [each safe]; [exact F|]. intros v _.
    assert (X : safe K (body r (each g l todo body finish))).
    { apply B; [left; reflexivity|]. apply IH. intros r' more Hr. apply B. right. exact Hr. }
    destruct l; try exact X. apply safe_app. exact X.
  Qed.
  Lemma for_each_items K g c k body finish : (forall r more, safe K more -> safe K (body r more)) -> safe K finish ->
    safe K (for_each g (LItems c k) body finish).
  Proof. intros B F v _. apply each_safe; [discriminate| |exact F]. intros r more _. apply B. Qed.
  Lemma for_each_names K g x body finish : (forall r more, safe K more -> safe K (body r more)) -> safe K finish ->
    safe K (for_each g (LNames x) body finish).
  Proof. intros B F v _. apply each_safe; [discriminate| |exact F]. intros r more _. apply B. Qed.
  Lemma for_each_bases K c body finish :
    (forall K' r more, incl K K' -> In (fst r) K' -> safe K' more -> safe K' (body r more)) -> safe K finish ->
    safe K (for_each (KBases c) (LBases c) body finish).
  Proof.
    intros B F v _. apply each_safe; [discriminate| |apply safe_app; exact F]. intros r more Hr. apply B; [apply incl_appr, incl_refl|].
    apply in_or_app. left. apply in_map. exact Hr.
  Qed.
  Lemma item_safe K c k n q : (forall v, safe K (q v)) -> safe K (item c k n q).
  Proof. intro Q. apply check_safe. destruct (n =? 0); [apply Q|]. apply look_safe; [discriminate|]. intro v. apply Q. Qed.
  Lemma find_method_safe K c k n q : (forall v, safe K (q v)) -> safe K (find_method c k n q).
  Proof. intro Q. apply check_safe. apply look_safe; [discriminate|]. intro v. apply Q. Qed.
  Lemma search_safe K k c n q : (forall v, safe K (q v)) -> safe K (search k c n q).
  Proof.
    intro Q. destruct k; cbn [search safe]; try (apply item_safe; exact Q); try (apply find_method_safe; exact Q); (split; [exact I|exact Q]).
  Qed.
  Lemma add_item_safe K c k n i q : (forall b, safe K (q b)) -> safe K (add_item c k n i q).
  Proof. intro Q. unfold add_item. cbn [safe]. intros v _. destruct (assoc n (rows v)); [apply Q|]. split; [exact I|apply Q]. Qed.
  Lemma create_safe K k c n q : (forall v, safe K (q v)) -> safe K (create k c n q).
  Proof.
    intro Q. unfold create. destruct (_ && _); [apply Q|]. apply search_safe. intro v. destruct (opt v); [apply Q|].
    cbn [safe]. intro i. split; [exact I|]. apply add_item_safe. intros [|]; [apply Q|apply search_safe; exact Q].
  Qed.
  Lemma create_class_safe K c n t q : (forall v, safe K (q v)) -> safe K (create_class c n t q).
  Proof.
    intro Q. apply item_safe. intro v. destruct (opt v); [apply Q|]. destruct (t =? 0); [apply Q|]. cbn [safe]. intros m _.
    split; [exact (fun x => x)|]. destruct (opt m).
    - cbn [safe]. intros m' Hm'. specialize (Hm' (or_introl eq_refl)). split; [exact (fun x => x)|]. destruct (opt m'); [|congruence].
      split; [exact I|]. intros _. apply safe_cons, safe_cons. apply Q.
    - cbn [safe]. intro i. split; [exact I|]. apply add_item_safe. intros [|]; [|apply item_safe; exact Q].
      apply peek; [discriminate|]. intro x. apply Q.
  Qed.
  Lemma decays_safe K a b no k : safe K no -> (forall e, safe K (k e)) -> safe K (decays a b no k).
  Proof. intros N H. unfold decays. destruct (_ || _); [exact N|]. intros x _ y _. apply H. Qed.

  Definition never_defers (c : client) : Prop := only (fun _ a => ~ defers a) [] c.

  Lemma den_safe :
    (forall c w K q, only (fun _ a => ~ defers a) w c -> (forall b, safe K (q b)) -> safe K (den c q)) /\
    (forall a w K q, only_api (fun _ a => ~ defers a) w a -> (forall v, safe K (q v)) -> safe K (den_api a q)).
  Proof.
    apply client_api_ind; cbn [den den_api].
    - intros r w K q _ Q. apply Q.
    - intros a IHa k IHk w K q [Ha Hk] Q. cbn [safe]. intro b. apply (IHa w); [exact Ha|]. intro v. cbn [safe]. exact (IHk v w K _ (Hk v) Q).
    - intros n w K q _ Q. destruct (n =? 0); [apply Q|]. apply look_safe; [discriminate|]. intro v. apply Q.
    - intros n d w K q _ Q. unfold add_type. destruct (n =? 0); [apply Q|]. cbn [safe]. intros v _. destruct (assoc n (rows v)); [apply Q|].
      cbn [safe]. intros t. split; [exact I|]. split; [exact I|]. apply Q.
    - intros a b w K q _ Q. apply decays_safe; [apply Q|]. intro e. apply look_safe; [discriminate|]. intro v. apply Q.
    - intros a b w K q _ Q. apply decays_safe; [apply Q|]. intro e. apply look_safe; [discriminate|]. intro v. apply Q.
    - intros a b f w K q _ Q. apply decays_safe; [apply Q|]. intro e. cbn [safe]. intros v _. destruct (conv_of e (convs v)); [apply Q|].
      cbn [safe]. split; [exact I|apply Q].
    - intros a b w K q _ Q. apply decays_safe; [apply Q|]. intro e. cbn [safe]. intros v _. split; [exact I|apply Q].
    - intros t w K q _ Q. destruct (t =? 0); [apply Q|]. apply peek; [exact (fun _ x => x)|exact Q].
    - intros c n t w K q _ Q. apply create_class_safe. exact Q.
    - intros k c n w K q _ Q. apply create_safe. exact Q.
    - intros c k w K q _ Q. apply check_safe. apply look_safe; [discriminate|]. intro v. apply Q.
    - intros c k i w K q _ Q. apply check_safe. apply look_safe; [discriminate|]. intro v. apply Q.
    - intros c k n w K q _ Q. apply item_safe. exact Q.
    - intros k c n w K q _ Q. destruct (n =? 0); [apply Q|]. split; [exact I|exact Q].
    - intros c n w K q _ Q. apply find_method_safe. exact Q.
    - intros c f IHf w K q [_ O] Q. apply check_safe. apply for_each_items; [|apply Q]. intros r more Hm. apply (IHf (snd r) w); [apply O|].
      intros [|]; [exact Hm|apply Q].
    - intros c f IHf w K q [_ O] Q. apply check_safe. apply for_each_items; [|apply Q]. intros r more Hm. apply (IHf (snd r) w); [apply O|].
      intros [|]; [exact Hm|apply Q].
    - intros c w K q _ Q. apply check_safe. apply look_safe; [discriminate|]. intro v. apply Q.
    - intros c i w K q _ Q. apply check_safe. apply look_safe; [discriminate|]. intro v. destruct (nth_error (rows v) i); [|apply Q].
      apply peek; [exact (fun _ x => x)|]. intro x. apply Q.
    - intros c w K q _ Q. apply check_safe. apply look_safe; [discriminate|]. intro v. apply Q.
    - intros c i w K q _ Q. apply check_safe. apply look_safe; [discriminate|]. intro v. destruct (nth_error (rows v) i); apply Q.
    - intros c t w K q _ Q. unfold add_base. destruct (t =? 0); [apply Q|]. cbn [safe]. intros m Hm. split; [exact (fun x => x)|].
      destruct (opt m) as [b|]; [|apply Q].
      assert (D : forall K', incl K K' -> safe K' (add_row (KDerived b) (LDerived b) c c (q VUnit))).
      { intros K' I'. apply (safe_more _ K); [exact I'|]. unfold add_row. cbn [safe]. intros v _. destruct (assoc c (rows v)); [apply Q|].
        split; [exact I|apply Q]. }
      assert (I1 : incl K (t :: K)) by (intros x Hx; right; exact Hx).
      unfold add_row at 1. cbn [safe]. intros v _.
      assert (I2 : incl K (map fst (rows v) ++ t :: K)) by (apply incl_appr; exact I1).
      destruct (assoc t (rows v)); [apply D; exact I2|]. split; [|apply D; exact I2]. cbn [rows]. rewrite map_app. apply incl_app.
      + apply incl_appl, incl_refl.
      + intros x [<-|[]]. apply in_or_app. right. left. reflexivity.
    - intros c b w K q _ Q. split; [exact I|exact Q].
    - intros c b w K q _ Q. split; [exact I|exact Q].
    - intros i w K q _ Q. split; [exact I|exact Q].
    - intros x w K q _ Q. apply check_list_safe. apply look_safe; [discriminate|]. intro v. apply Q.
    - intros x i w K q _ Q. apply check_list_safe. apply look_safe; [discriminate|]. intro v. apply Q.
    - intros x n w K q _ Q. apply check_list_safe. destruct (n =? 0); [apply Q|]. apply look_safe; [discriminate|]. intro v. apply Q.
    - intros x i w K q _ Q. apply check_list_safe. apply look_safe; [discriminate|]. intro v. apply Q.
    - intros x f IHf w K q [_ O] Q. apply check_list_safe. apply for_each_names; [|apply Q]. intros r more Hm.
      apply (IHf (fst r) (snd r) (x :: w)); [apply O|]. intros [|]; [exact Hm|apply Q].
    - intros x n v w K q _ Q. unfold set_value. destruct (n =? 0); [apply Q|]. cbn [safe]. intros u _. destruct (assoc n (rows u)); cbn [safe].
      + split; [exact I|apply Q].
      + split; [exact I|]. split; [exact I|]. apply Q.
    - intros r w K q _ Q. destruct r as [[x n]|]; [|apply Q]. intros v _. apply Q.
    - intros c d w K q [N _] Q. destruct (N I).
    - intros c w K q _ Q. split; [exact I|exact Q].
  Qed.

  Lemma unfold_safe K s q : match s with SRun _ _ => False | _ => True end -> (forall v, safe K (q v)) -> safe K (unfold defs s q).
  Proof.
    intros O Q. destruct s as [i|d c|k c n|c b|c b|c]; cbn [unfold].
    - cbn [safe]. intros v _. assert (R : safe K (Load (LQual i) q)) by (intros w _; apply Q).
      destruct (path v); [|exact R]. cbn [safe]. intros s _.
      assert (N : safe K (Store (LQual i) (VPath []) (Load (LQual i) q))) by (split; [exact I|exact R]).
      destruct s as [| | | | | | |k n o| |]; try exact N. destruct o; [|exact N]. cbn [safe]. split; [exact I|]. intro w.
      split; [exact I|exact R].
    - destruct O.
    - apply find_method_safe. intro v. destruct (opt v); [apply Q|]. cbn [safe]. intros s _.
      destruct s as [| | | | | | |k' n' o| |]; try apply Q. destruct k'; try apply Q. apply for_each_bases; [|apply Q].
      intros K' r more I' Hr Hm. unfold direct_base. cbn [safe]. intros v' Hv'. specialize (Hv' Hr). split; [exact (fun x => x)|].
      destruct (opt v'); [|congruence]. apply safe_cons. split; [exact I|]. intro w. destruct (opt w); [apply (safe_more _ K); [exact I'|apply Q]|exact Hm].
    - destruct (c =? b); [apply Q|]. apply check_safe. apply for_each_bases; [|apply Q].
      intros K' r more I' Hr Hm. unfold direct_base. cbn [safe]. intros v' Hv'. specialize (Hv' Hr). split; [exact (fun x => x)|].
      destruct (opt v'); [|congruence]. apply safe_cons. split; [exact I|]. intro w. destruct (flag w); [apply (safe_more _ K); [exact I'|apply Q]|exact Hm].
    - destruct (c =? b); [apply Q|]. apply check_safe. apply for_each_bases; [|apply Q].
      intros K' r more I' Hr Hm. unfold direct_base. cbn [safe]. intros v' Hv'. specialize (Hv' Hr). split; [exact (fun x => x)|].
      destruct (opt v'); [|congruence]. apply safe_cons. split; [exact I|]. intro w. destruct (flag w); [|exact Hm].
      split; [exact I|]. intro u. apply (safe_more _ K); [exact I'|apply Q].
    - apply check_safe. apply for_each_items; [intros r more Hm; split; [exact I|intros _; exact Hm]|].
      apply for_each_items; [intros r more Hm; split; [exact I|intros _; exact Hm]|]. apply Q.
  Qed.

  Definition known (s : state) (K : list nat) : Prop := forall t, In t K -> opt (atom s (AMeta t)) <> None.

  Record sound (s : state) : Prop := Sound {
    sound_defs : no_definition s;
    sound_bases : registered s;
    sound_threads : forall p, In p (threads s) -> exists K, known s K /\ safe K p
  }.

  Lemma turn_sound s i : sound s -> sound (turn defs s i).
  Proof.
    intros [Nd Rg T]. unfold turn. destruct (nth_error (threads s) i) as [p|] eqn:Hp; [|constructor; assumption].
    destruct (T p (nth_error_In _ _ Hp)) as (K & HK & P).
    assert (Mk : forall m a h n lg p' K', (forall c, opt (m (LDefer c)) = None) ->
              (forall c t b, In (t, b) (rows (m (LBases c))) -> opt (a (AMeta t)) <> None) ->
              (forall t, opt (atom s (AMeta t)) <> None -> opt (a (AMeta t)) <> None) ->
              (forall t, In t K' -> opt (a (AMeta t)) <> None) -> safe K' p' ->
              sound (State m a h n (put (threads s) i p') lg)).
    { intros m a h n lg p' K' D B Up HK' P'. constructor; [exact D|exact B|]. cbn [threads]. intros q Hq. apply put_in in Hq.
      destruct Hq as [->|Hq]; [exists K'; split; [exact HK'|exact P']|]. destruct (T q Hq) as (K1 & H1 & P1). exists K1. split; [|exact P1].
      intros t Ht. apply Up. apply H1. exact Ht. }
    assert (Id : forall t, opt (atom s (AMeta t)) <> None -> opt (atom s (AMeta t)) <> None) by tauto.
    destruct p as [| |g m q|g m q|l k|l v q|l v q|a f k|k|sb k|k|a b v q]; cbn [step safe] in *.
    - apply (Mk _ _ _ _ _ _ K); assumption.
    - contradiction.
    - destruct (free s g m); cbn [mem atom held next threads log]; apply (Mk _ _ _ _ _ _ K); assumption.
    - apply (Mk _ _ _ _ _ _ K); assumption.
    - apply (Mk _ _ _ _ _ _ (match l with LBases _ => map fst (rows (mem s l)) ++ K | _ => K end)); try assumption.
      + destruct l; try exact HK. intros t Ht. apply in_app_or in Ht. destruct Ht as [Ht|Ht]; [|exact (HK t Ht)].
        apply in_map_iff in Ht. destruct Ht as ([t' b] & E & Hr). cbn in E. subst t'. exact (Rg c t b Hr).
      + apply P. destruct l; try exact I. apply Nd.
    - destruct P as [P1 P2]. apply (Mk _ _ _ _ _ _ K); cbn [mem atom]; try assumption.
      + intro c. destruct (loc_beq (LDefer c) l) eqn:E; [apply loc_beq_eq in E; subst l; exact P1|apply Nd].
      + intros c t b. destruct (loc_beq (LBases c) l) eqn:E; [|apply Rg]. apply loc_beq_eq in E. subst l. intro Hr. apply HK, P1.
        apply in_map_iff. exists (t, b). split; [reflexivity|exact Hr].
    - destruct P as [P1 P2]. apply (Mk _ _ _ _ _ _ K); cbn [mem atom]; try assumption.
      + intro c. destruct (loc_beq (LDefer c) l) eqn:E; [apply loc_beq_eq in E; subst l; destruct P1|apply Nd].
      + intros c t b. destruct (loc_beq (LBases c) l) eqn:E; [|apply Rg]. apply loc_beq_eq in E. subst l. destruct P1.
    - destruct a as [t|c].
      + destruct (P (atom s (AMeta t)) (HK t)) as [P1 P2].
        assert (Up : forall t', opt (atom s (AMeta t')) <> None ->
                  opt (if aloc_beq (AMeta t') (AMeta t) then f (atom s (AMeta t)) else atom s (AMeta t')) <> None).
        { intros t' H. destruct (aloc_beq (AMeta t') (AMeta t)) eqn:E; [|exact H]. apply internal_aloc_dec_bl in E. injection E as ->. exact (P1 H). }
        apply (Mk _ _ _ _ _ _ (match opt (atom s (AMeta t)) with Some _ => t :: K | None => K end)); cbn [mem atom].
        * exact Nd.
        * intros c t' b Hr. apply Up. exact (Rg c t' b Hr).
        * exact Up.
        * intros t' Ht. apply Up. destruct (opt (atom s (AMeta t))) eqn:E; [|exact (HK t' Ht)].
          destruct Ht as [<-|Ht]; [congruence|exact (HK t' Ht)].
        * exact P2.
      + apply (Mk _ _ _ _ _ _ K); cbn [mem atom]; try assumption. apply P.
    - apply (Mk _ _ _ _ _ _ K); try assumption. apply P.
    - apply (Mk _ _ _ _ _ _ K); try assumption. destruct P as [P1 P2]. apply unfold_safe; assumption.
    - apply (Mk _ _ _ _ _ _ K); try assumption. apply P.
    - apply (Mk _ _ _ _ _ _ K); assumption.
  Qed.

  Lemma exec_sound sched : forall s, sound s -> sound (exec defs s sched).
  Proof. induction sched as [|i sched IH]; intros s S; [exact S|]. apply (IH (turn defs s i)). apply turn_sound. exact S. Qed.

  Lemma start_sound m a n clients : no_definition (start m a n clients) -> registered (start m a n clients) ->
    (forall c, In c clients -> never_defers c) -> sound (start m a n clients).
  Proof.
    intros D R C. constructor; [exact D|exact R|]. cbn [start threads]. intros p Hp. apply in_map_iff in Hp. destruct Hp as (c & <- & Hc).
    exists []. split; [intros t []|]. apply (proj1 den_safe c []); [apply C; exact Hc|]. intros _. exact I.
  Qed.
  Lemma sound_no_crash s : sound s -> ~ In Crash (threads s).
  Proof. intros [_ _ T] H. destruct (T Crash H) as (K & _ & X). exact X. Qed.
End Safe.
