(** Every thread, at every moment, has a remaining program in which each call takes effect once. Nothing here models code
    of /repo. *)
From Coq Require Import List Bool Arith Lia.
From Verif Require Import Util DeferModel RaceModel RaceSpec RaceProofs AtomicSpec AtomicBook.
Import ListNotations.

Section Atomic.
  Variables (defs : nat -> nat -> client) (n0 : nat) (decay : nat -> nat).
  Hypothesis Hdefs : forall d c, only (fun _ => early n0) [] (defs d c).

  (** A call that is open, and the answer it will give if it has taken effect. *)
  Definition open (st : list frame) : Prop := match st with (_, _, Some _) :: _ => False | _ => True end.
  Definition final (a : api) (d : option val) (v : val) : Prop :=
    (whole a -> d = Some v \/ (d = None /\ forall t, effect decay a t t v)) /\ (~ whole a -> d = None).

  (** Names known to be in a table. *)
  Definition saw (K : list (loc * nat)) (l : loc) (v : val) : Prop :=
    (forall t, l = LInfo t -> t < n0 -> number v = decay t) /\ (forall n, In (l, n) K -> In n (map fst (rows v))).
  Definition mind (l : loc) (v : val) (K : list (loc * nat)) : list (loc * nat) :=
    if append l then map (pair l) (map fst (rows v)) ++ K else K.
  Definition sole (H : list hold) (l : loc) : Prop := exists g, guard l = Some g /\ In (g, Exclusive) H.

  (** [X]: what is in a table that nobody else can change. *)
  Fixpoint lz (st : list frame) (H : list hold) (X : option (loc * val)) (K : list (loc * nat)) (p : prog) : Prop :=
    match p with
    | Done => st = []
    | Crash => True
    | Lock g m p' => lz st ((g, m) :: H) X K p'
    | Unlock g m p' => In (g, m) H /\ lz st (rem (g, m) H) None K p'
    | Load l k => forall v, saw K l v ->
        lz st H X (mind l v K) (k v) \/
        (sole H l /\ lz st H (Some (l, v)) (mind l v K) (k v)) \/
        (exists a b st' ans, st = (a, b, None) :: st' /\ home a = Some l /\ effect decay a v v ans /\
           lz ((a, b, Some ans) :: st') H None (mind l v K) (k v))
    | Store l v p' =>
        if table l
        then exists w, X = Some (l, w) /\ sole H l /\
          ((exists a b st' ans, st = (a, b, None) :: st' /\ home a = Some l /\ effect decay a w v ans /\
              lz ((a, b, Some ans) :: st') H None K p') \/
           (exists a b st' n i, st = (a, b, None) :: st' /\ ~ whole a /\ adds a l n /\ finds (rows w) n None /\
              v = VMap (rows w ++ [(n, i)]) /\ l <> LConv /\ lz st H None K p'))
        else (forall t, l <> LInfo t) /\ lz st H X K p'
    | Alloc l v p' => table l = false /\ (forall t, l = LInfo t -> n0 <= t) /\ lz st H X K p'
    | Atomic a f k => forall v, lz st H X K (k v)
    | New k => forall i, n0 <= i -> lz st H X K (k i)
    | Sub q k => open st /\ X = None /\ forall v, lz st H None K (k v)
    | Mark k => open st /\ X = None /\ exists a, forall b, lz ((a, b, None) :: st) H None K (k b)
    | Note a b v p' =>
        match st with
        | (a', b', d) :: st' => a' = a /\ b' = b /\ final a d v /\ X = None /\ lz st' H None K p'
        | [] => False
        end
    end.

  Lemma mind_more l v K K' : incl K K' -> incl (mind l v K) (mind l v K').
  Proof. intro I. unfold mind. destruct (append l); [|exact I]. apply incl_app; [apply incl_appl, incl_refl|apply incl_appr; exact I]. Qed.
  Lemma mind_incl l v K : incl K (mind l v K).
  Proof. unfold mind. destruct (append l); [apply incl_appr|]; apply incl_refl. Qed.

  Lemma lz_more p : forall st H X K K', incl K K' -> lz st H X K p -> lz st H X K' p.
  Proof.
    induction p as [| |g m p IH|g m p IH|l k IH|l v p IH|l v p IH|a f k IH|k IH|q k IH|k IH|a b v p IH]; intros st H X K K' I; cbn [lz].
    - exact (fun x => x).
    - exact (fun x => x).
    - apply IH. exact I.
    - intros [A B]. split; [exact A|exact (IH _ _ _ _ _ I B)].
    - intros L v [S1 S2]. pose proof (mind_more l v _ _ I) as I'.
      destruct (L v (conj S1 (fun n Hn => S2 n (I _ Hn)))) as [A|[[A B]|(a & b & st' & ans & -> & A1 & A2 & A3)]].
      + left. exact (IH v _ _ _ _ _ I' A).
      + right. left. split; [exact A|exact (IH v _ _ _ _ _ I' B)].
      + right. right. exists a, b, st', ans. split; [reflexivity|]. split; [exact A1|]. split; [exact A2|exact (IH v _ _ _ _ _ I' A3)].
    - destruct (table l).
      + intros (w & -> & S & D). exists w. split; [reflexivity|]. split; [exact S|].
        destruct D as [(a & b & st' & ans & -> & A1 & A2 & A3)|(a & b & st' & n & i & -> & A1 & A2 & A3 & -> & A5 & A6)].
        * left. exists a, b, st', ans. split; [reflexivity|]. split; [exact A1|]. split; [exact A2|exact (IH _ _ _ _ _ I A3)].
        * right. exists a, b, st', n, i. repeat (split; [try reflexivity; assumption|]). exact (IH _ _ _ _ _ I A6).
      + intros [A B]. split; [exact A|exact (IH _ _ _ _ _ I B)].
    - intros (A & B & C). split; [exact A|]. split; [exact B|exact (IH _ _ _ _ _ I C)].
    - intros A v. exact (IH v _ _ _ _ _ I (A v)).
    - intros A i Hi. exact (IH i _ _ _ _ _ I (A i Hi)).
    - intros (A & B & C). split; [exact A|]. split; [exact B|]. intro v. exact (IH v _ _ _ _ _ I (C v)).
    - intros (A & B & a & C). split; [exact A|]. split; [exact B|]. exists a. intro b. exact (IH b _ _ _ _ _ I (C b)).
    - destruct st as [|[[a' b'] d] st']; [exact (fun x => x)|]. intros (A & B & C & D & E). repeat (split; [assumption|]). exact (IH _ _ _ _ _ I E).
  Qed.

  (** A read that nothing depends on. *)
  Lemma load_lz st H X K l k : (forall v, saw K l v -> lz st H X K (k v)) -> lz st H X K (Load l k).
  Proof. intros L v S. left. apply (lz_more _ _ _ _ K); [apply mind_incl|]. apply L. exact S. Qed.

  Lemma check_lz st H K c p : open st -> lz st H None K p -> lz st H None K (check c p).
  Proof.
    intros O P. unfold check. apply load_lz. intros v _. destruct (opt v); [|exact P]. cbn [lz]. intro old. destruct (flag old); [exact P|].
    apply load_lz. intros w _. destruct (opt w); [|exact I]. cbn [lz]. split; [exact O|]. split; [reflexivity|]. intros _. cbn [table].
    split; [discriminate|]. intros _. exact P.
  Qed.
  Lemma check_list_lz st H K x p : open st -> lz st H None K p -> lz st H None K (check_list x p).
  Proof.
    intros O P. destruct x; [|exact P]. cbn [check_list check_item]. apply load_lz. intros v _. destruct v; try exact P.
    destruct k; try exact P; apply check_lz; assumption.
  Qed.

  (** A look into a table: the call takes effect here, or not. *)
  Definition here (st : list frame) (l : loc) (v : val) (P : list frame -> Prop) : Prop :=
    exists a b st' ans, st = (a, b, None) :: st' /\ home a = Some l /\ effect decay a v v ans /\ P ((a, b, Some ans) :: st').

  Lemma look_lz st H K g l k :
    (forall v, saw K l v -> lz st H None (mind l v K) (k v) \/ here st l v (fun st' => lz st' H None (mind l v K) (k v))) ->
    lz st H None K (look g l k).
  Proof.
    intros L. unfold look. cbn [lz]. intros v S. destruct (L v S) as [A|(a & b & st' & ans & -> & A1 & A2 & A3)].
    - left. split; [left; reflexivity|]. rewrite rem_head. exact A.
    - right. right. exists a, b, st', ans. split; [reflexivity|]. split; [exact A1|]. split; [exact A2|].
      split; [left; reflexivity|]. rewrite rem_head. exact A3.
  Qed.
  Lemma look_here a b st H K g l k : home a = Some l ->
    (forall v, exists ans, effect decay a v v ans /\ lz ((a, b, Some ans) :: st) H None K (k v)) ->
    lz ((a, b, None) :: st) H None K (look g l k).
  Proof.
    intros E L. apply look_lz. intros v _. right. destruct (L v) as (ans & A & B). exists a, b, st, ans.
    split; [reflexivity|]. split; [exact E|]. split; [exact A|]. apply (lz_more _ _ _ _ K); [apply mind_incl|exact B].
  Qed.
  Lemma look_away st H K g l k : (forall v, lz st H None K (k v)) -> lz st H None K (look g l k).
  Proof. intros L. apply look_lz. intros v _. left. apply (lz_more _ _ _ _ K); [apply mind_incl|apply L]. Qed.

  Lemma each_lz st H K g l body finish todo :
    (forall r more, lz st ((g, Shared) :: H) None K more -> lz st ((g, Shared) :: H) None K (body r more)) ->
    lz st H None K finish -> lz st ((g, Shared) :: H) None K (each g l todo body finish).
  Proof.
    intros B F. induction todo as [|r todo IH]; cbn [each].
    - cbn [lz]. split; [left; reflexivity|]. rewrite rem_head. exact F.
    - apply load_lz. intros v _. apply B. exact IH.
  Qed.
  Lemma for_each_lz st H K g l body finish :
    (forall r more, lz st ((g, Shared) :: H) None K more -> lz st ((g, Shared) :: H) None K (body r more)) ->
    lz st H None K finish -> lz st H None K (for_each g l body finish).
  Proof. intros B F. unfold for_each. cbn [lz]. apply (load_lz st ((g, Shared) :: H) None K). intros v _. apply each_lz; assumption. Qed.
  Lemma unlock_lz st H K g p : lz st H None K p -> lz st ((g, Shared) :: H) None K (Unlock g Shared p).
  Proof. intros P. cbn [lz]. split; [left; reflexivity|]. rewrite rem_head. exact P. Qed.

  Lemma assoc_finds n l : finds l n (assoc n l).
  Proof. destruct (assoc n l) eqn:E; [exact (assoc_some _ _ _ E)|exact (assoc_none _ _ E)]. Qed.
  Lemma conv_some k l f : conv_of k l = Some f -> In (k, f) l.
  Proof.
    unfold conv_of. destruct (find _ l) as [[a b]|] eqn:E; [|discriminate]. cbn. intros [= <-].
    apply find_some in E. destruct E as [Hi He]. cbn [fst] in He. apply same_eq in He. subst. exact Hi.
  Qed.
  Lemma conv_converts k l : converts l k (conv_of k l).
  Proof. destruct (conv_of k l) eqn:E; [exact (conv_some _ _ _ E)|exact (conv_none _ _ E)]. Qed.

  (** A row added by a call that does more than that. *)
  Lemma add_part a b st H K g l n x no yes : guard l = Some g -> append l = true -> ~ whole a -> adds a l n ->
    lz ((a, b, None) :: st) H None K no -> lz ((a, b, None) :: st) H None K yes ->
    lz ((a, b, None) :: st) H None K (Lock g Exclusive (Load l (fun v =>
       match assoc n (rows v) with
       | Some _ => Unlock g Exclusive no
       | None => Store l (VMap (rows v ++ [(n, x)])) (Unlock g Exclusive yes)
       end))).
  Proof.
    intros E A W D No Yes. assert (T : table l = true) by (unfold append in A; apply andb_true_iff in A; tauto).
    assert (S : sole ((g, Exclusive) :: H) l) by (exists g; split; [exact E|left; reflexivity]).
    cbn [lz]. intros v _. destruct (assoc n (rows v)) eqn:Ea.
    - left. cbn [lz]. split; [left; reflexivity|]. rewrite rem_head. apply (lz_more _ _ _ _ K); [apply mind_incl|exact No].
    - right. left. split; [exact S|]. cbn [lz]. rewrite T. exists v. split; [reflexivity|]. split; [exact S|]. right. exists a, b, st, n, x.
      split; [reflexivity|]. split; [exact W|]. split; [exact D|]. split; [exact (assoc_none _ _ Ea)|]. split; [reflexivity|].
      split; [intros ->; discriminate A|]. cbn [lz]. split; [left; reflexivity|]. rewrite rem_head. apply (lz_more _ _ _ _ K); [apply mind_incl|exact Yes].
  Qed.

  (** Looking for an item is never the whole call where it does not matter. *)
  Lemma item_away st H K c k n q : open st -> (forall v, lz st H None K (q v)) -> lz st H None K (item c k n q).
  Proof. intros O Q. apply check_lz; [exact O|]. destruct (n =? 0); [apply Q|]. apply look_away. intro v. apply Q. Qed.
  Lemma find_method_away st H K c k n q : open st -> (forall v, lz st H None K (q v)) -> lz st H None K (find_method c k n q).
  Proof. intros O Q. apply check_lz; [exact O|]. apply look_away. intro v. apply Q. Qed.
  Lemma search_away st H K k c n q : open st -> (forall v, lz st H None K (q v)) -> lz st H None K (search k c n q).
  Proof.
    intros O Q. destruct k; cbn [search]; try (apply item_away; assumption); try (apply find_method_away; assumption);
      (cbn [lz]; split; [exact O|]; split; [reflexivity|exact Q]).
  Qed.
  Lemma add_item_part a b st H K c k n i q : ~ whole a -> adds a (LItems c k) n -> (forall x, lz ((a, b, None) :: st) H None K (q x)) ->
    lz ((a, b, None) :: st) H None K (add_item c k n i q).
  Proof. intros W D Q. unfold add_item. apply add_part; try reflexivity; try assumption; apply Q. Qed.

  Lemma create_away b st H K k c n q : ~ whole (Create k c n) -> (forall v, lz ((Create k c n, b, None) :: st) H None K (q v)) ->
    lz ((Create k c n, b, None) :: st) H None K (create k c n q).
  Proof.
    intros W Q. unfold create. destruct (_ && _); [apply Q|]. apply search_away; [exact I|]. intro v. destruct (opt v); [apply Q|].
    cbn [lz]. intros i Hi. split; [reflexivity|]. split; [discriminate|]. apply add_item_part; [exact W|split; reflexivity|].
    intros [|]; [apply Q|apply search_away; [exact I|exact Q]].
  Qed.
  Lemma create_class_lz b st H K c n t q : (forall v, lz ((CreateClass c n t, b, None) :: st) H None K (q v)) ->
    lz ((CreateClass c n t, b, None) :: st) H None K (create_class c n t q).
  Proof.
    intros Q. apply item_away; [exact I|]. intro v. destruct (opt v); [apply Q|]. destruct (t =? 0); [apply Q|]. cbn [lz]. intro m.
    destruct (opt m).
    - cbn [lz]. intro m'. destruct (opt m'); [|exact I]. cbn [lz]. split; [exact I|]. split; [reflexivity|]. intros _. apply Q.
    - cbn [lz]. intros i Hi. split; [reflexivity|]. split; [discriminate|]. apply add_item_part; [intro W; apply W; reflexivity|split; reflexivity|].
      intros [|]; [|apply item_away; [exact I|exact Q]]. cbn [lz]. intros _. apply Q.
  Qed.

  (** Creating under a name: found, or added, or added by another meanwhile and found then. *)
  Lemma create_here b st H K k c n q : home (Create k c n) = Some (LItems c k) ->
    (forall i, lz ((Create k c n, b, Some (VOpt (Some i))) :: st) H None K (q (VOpt (Some i)))) ->
    lz ((Create k c n, b, None) :: st) H None K (create k c n q).
  Proof.
    intros Eh Q.
    assert (Hn : (n =? 0) = false) by (destruct n; [cbn in Eh; destruct k; discriminate Eh|reflexivity]).
    assert (Hk : forall q, search k c n q = check c (look (KItems c k) (LItems c k) (fun v => q (VOpt (assoc n (rows v)))))).
    { intro q'. destruct k; try (cbn in Eh; discriminate Eh); cbn [search]; unfold item, find_method; try rewrite Hn; reflexivity. }
    assert (Ef : forall v i, assoc n (rows v) = Some i -> effect decay (Create k c n) v v (VOpt (Some i))).
    { intros v i Ea. exists i. split; [reflexivity|]. left. split; [reflexivity|exact (assoc_some _ _ _ Ea)]. }
    unfold create. replace (_ && _) with false by (rewrite Hn; destruct k; reflexivity). rewrite Hk.
    apply check_lz; [exact I|]. apply look_lz. intros v _. cbn [opt]. destruct (assoc n (rows v)) as [i|] eqn:Ea.
    - right. exists (Create k c n), b, st, (VOpt (Some i)). split; [reflexivity|]. split; [exact Eh|]. split; [exact (Ef v i Ea)|].
      apply (lz_more _ _ _ _ K); [apply mind_incl|apply Q].
    - left. cbn [lz]. intros i Hi. split; [reflexivity|]. split; [discriminate|]. unfold add_item. cbn [lz]. intros w _.
      destruct (assoc n (rows w)) as [j|] eqn:Ew.
      + left. cbn [lz]. split; [left; reflexivity|]. rewrite rem_head, Hk. apply check_lz; [exact I|]. apply look_lz. intros u [_ Hu]. right.
        assert (Hi' : In n (map fst (rows u))).
        { apply Hu. unfold mind at 1. cbn [append table loc_beq andb negb]. apply in_or_app. left. apply in_map.
          apply in_map_iff. exists (n, j). split; [reflexivity|exact (assoc_some _ _ _ Ew)]. }
        destruct (assoc n (rows u)) as [i'|] eqn:Eu; [|destruct (assoc_none _ _ Eu Hi')].
        exists (Create k c n), b, st, (VOpt (Some i')). split; [reflexivity|]. split; [exact Eh|]. split; [exact (Ef u i' Eu)|].
        apply (lz_more _ _ _ _ K); [|apply Q]. eapply incl_tran; [|apply mind_incl]. eapply incl_tran; [|apply mind_incl]. apply mind_incl.
      + right. left. assert (S : sole ((KItems c k, Exclusive) :: H) (LItems c k)) by (exists (KItems c k); split; [reflexivity|left; reflexivity]).
        split; [exact S|]. cbn [lz]. change (table (LItems c k)) with true. cbv iota. exists w. split; [reflexivity|]. split; [exact S|]. left.
        exists (Create k c n), b, st, (VOpt (Some i)). split; [reflexivity|]. split; [exact Eh|]. split.
        * exists i. split; [reflexivity|]. right. split; [exact (assoc_none _ _ Ew)|reflexivity].
        * cbn [lz]. split; [left; reflexivity|]. rewrite rem_head. apply (lz_more _ _ _ _ K); [|apply Q].
          eapply incl_tran; [|apply mind_incl]. apply mind_incl.
  Qed.

  (** A converter call, after the decayed types have been read. *)
  Lemma decays_lz st H K a b no k : a < n0 -> b < n0 -> ((a =? 0) || (b =? 0) = true -> lz st H None K no) ->
    ((a =? 0) || (b =? 0) = false -> lz st H None K (k (decay a, decay b))) -> lz st H None K (decays a b no k).
  Proof.
    intros Ha Hb No Yes. unfold decays. destruct (_ || _); [apply No; reflexivity|]. apply load_lz. intros x [Sx _]. apply load_lz. intros y [Sy _].
    rewrite (Sx a eq_refl Ha), (Sy b eq_refl Hb). apply Yes. reflexivity.
  Qed.

  Lemma away a : home a = None -> ~ whole a. Proof. intros E W. exact (W E). Qed.
  Lemma final_away a v : home a = None -> final a None v.
  Proof. intro E. split; [intro W; destruct (W E)|intros _; reflexivity]. Qed.
  Lemma final_some a v l : home a = Some l -> final a (Some v) v.
  Proof. intro E. split; [intros _; left; reflexivity|intro W; destruct W; intro; congruence]. Qed.
  Lemma final_none a v l : home a = Some l -> (forall t, effect decay a t t v) -> final a None v.
  Proof. intros E F. split; [intros _; right; split; [reflexivity|exact F]|intros _; reflexivity]. Qed.

  Lemma den_lz :
    (forall c w st H K q, only (fun _ => early n0) w c -> open st -> (forall b, lz st H None K (q b)) -> lz st H None K (den c q)) /\
    (forall a w b st H K q, only_api (fun _ => early n0) w a ->
       (forall d v, final a d v -> lz ((a, b, d) :: st) H None K (q v)) -> lz ((a, b, None) :: st) H None K (den_api a q)).
  Proof.
    apply client_api_ind; cbn [den den_api].
    - intros r w st H K q _ _ Q. apply Q.
    - intros a IHa k IHk w st H K q [Ha Hk] O Q. cbn [lz]. split; [exact O|]. split; [reflexivity|]. exists a. intro b. apply (IHa w); [exact Ha|].
      intros d v F. cbn [lz]. split; [reflexivity|]. split; [reflexivity|]. split; [exact F|]. split; [reflexivity|].
      exact (IHk v w st H K q (Hk v) O Q).
    - (* TypeByName *) intros n w b st H K q _ Q. destruct (n =? 0) eqn:En.
      + apply Q. apply (final_none _ _ LTypes); [reflexivity|]. intro t. split; [reflexivity|]. exists None. rewrite En. split; reflexivity.
      + apply look_here; [reflexivity|]. intro v. eexists. split; [|apply Q; apply (final_some _ _ LTypes); reflexivity].
        split; [reflexivity|]. eexists. split; [reflexivity|]. rewrite En. apply assoc_finds.
    - (* Register *) intros n d w b st H K q _ Q. unfold add_type. destruct (n =? 0) eqn:En.
      + apply Q. apply (final_none _ _ LTypes); [reflexivity|]. intro t. cbn [effect]. rewrite En. split; reflexivity.
      + cbn [lz]. intros v _. assert (S : sole ((KTypes, Exclusive) :: H) LTypes) by (exists KTypes; split; [reflexivity|left; reflexivity]).
        destruct (assoc n (rows v)) as [t|] eqn:Ea.
        * right. right. exists (Register n d), b, st, (VOpt (Some t)). split; [reflexivity|]. split; [reflexivity|]. split.
          -- cbn [effect]. rewrite En. exists t. split; [reflexivity|]. left. split; [reflexivity|exact (assoc_some _ _ _ Ea)].
          -- cbn [lz]. split; [left; reflexivity|]. rewrite rem_head. apply (lz_more _ _ _ _ K); [apply mind_incl|]. apply Q.
             apply (final_some _ _ LTypes). reflexivity.
        * right. left. split; [exact S|]. cbn [lz]. intros t Ht. split; [reflexivity|]. split; [intros t' [= <-]; exact Ht|].
          cbn [table]. exists v. split; [reflexivity|]. split; [exact S|]. left. exists (Register n d), b, st, (VOpt (Some t)).
          split; [reflexivity|]. split; [reflexivity|]. split.
          -- cbn [effect]. rewrite En. exists t. split; [reflexivity|]. right. split; [exact (assoc_none _ _ Ea)|reflexivity].
          -- split; [left; reflexivity|]. rewrite rem_head. apply (lz_more _ _ _ _ K); [apply mind_incl|]. apply Q.
             apply (final_some _ _ LTypes). reflexivity.
    - (* HasConv *) intros x y w b st H K q [[Hx Hy] _] Q. apply decays_lz; [exact Hx|exact Hy| |]; intro E.
      + apply Q. apply (final_none _ _ LConv); [reflexivity|]. intro t. split; [reflexivity|]. exists None. rewrite E. split; reflexivity.
      + apply look_here; [reflexivity|]. intro v. eexists. split; [|apply Q; apply (final_some _ _ LConv); reflexivity].
        split; [reflexivity|]. exists (conv_of (decay x, decay y) (convs v)). split; [reflexivity|]. rewrite E. apply conv_converts.
    - (* Convert *) intros x y w b st H K q [[Hx Hy] _] Q. apply decays_lz; [exact Hx|exact Hy| |]; intro E.
      + apply Q. apply (final_none _ _ LConv); [reflexivity|]. intro t. split; [reflexivity|]. exists None. rewrite E. split; reflexivity.
      + apply look_here; [reflexivity|]. intro v. eexists. split; [|apply Q; apply (final_some _ _ LConv); reflexivity].
        split; [reflexivity|]. exists (conv_of (decay x, decay y) (convs v)). split; [reflexivity|]. rewrite E. apply conv_converts.
    - (* RegConv *) intros x y f w b st H K q [[Hx Hy] _] Q. apply decays_lz; [exact Hx|exact Hy| |]; intro E.
      + apply Q. apply (final_none _ _ LConv); [reflexivity|]. intro t. cbn [effect]. rewrite E. split; reflexivity.
      + cbn [lz]. intros v _. assert (S : sole ((KConv, Exclusive) :: H) LConv) by (exists KConv; split; [reflexivity|left; reflexivity]).
        pose proof (conv_converts (decay x, decay y) (convs v)) as C. destruct (conv_of (decay x, decay y) (convs v)) as [g|] eqn:Ec.
        * right. right. exists (RegConv x y f), b, st, (VBool false). split; [reflexivity|]. split; [reflexivity|]. split.
          -- cbn [effect]. rewrite E. left. split; [reflexivity|]. split; [reflexivity|]. exists g. exact C.
          -- cbn [lz]. split; [left; reflexivity|]. rewrite rem_head. apply (lz_more _ _ _ _ K); [apply mind_incl|]. apply Q.
             apply (final_some _ _ LConv). reflexivity.
        * right. left. split; [exact S|]. cbn [lz table]. exists v. split; [reflexivity|]. split; [exact S|]. left.
          exists (RegConv x y f), b, st, (VBool true). split; [reflexivity|]. split; [reflexivity|]. split.
          -- cbn [effect]. rewrite E. right. split; [reflexivity|]. split; [exact C|reflexivity].
          -- split; [left; reflexivity|]. rewrite rem_head. apply (lz_more _ _ _ _ K); [apply mind_incl|]. apply Q.
             apply (final_some _ _ LConv). reflexivity.
    - (* UnregConv *) intros x y w b st H K q [[Hx Hy] _] Q. apply decays_lz; [exact Hx|exact Hy| |]; intro E.
      + apply Q. apply (final_none _ _ LConv); [reflexivity|]. intro t. cbn [effect]. rewrite E. split; reflexivity.
      + cbn [lz]. intros v _. assert (S : sole ((KConv, Exclusive) :: H) LConv) by (exists KConv; split; [reflexivity|left; reflexivity]).
        right. left. split; [exact S|]. cbn [lz table]. exists v. split; [reflexivity|]. split; [exact S|]. left.
        exists (UnregConv x y), b, st, VUnit. split; [reflexivity|]. split; [reflexivity|]. split.
        * cbn [effect]. rewrite E. split; [reflexivity|]. intro r. cbn [convs]. rewrite filter_In, negb_true_iff.
          assert (B : same (fst r) (decay x, decay y) = false <-> fst r <> (decay x, decay y)).
          { rewrite <- same_eq. destruct (same _ _); split; intro; congruence. }
          rewrite B. reflexivity.
        * split; [left; reflexivity|]. rewrite rem_head. apply (lz_more _ _ _ _ K); [apply mind_incl|]. apply Q.
          apply (final_some _ _ LConv). reflexivity.
    - (* FindClass *) intros t w b st H K q _ Q. destruct (t =? 0); [apply Q; apply final_away; reflexivity|]. cbn [lz]. intro v.
      apply Q. apply final_away. reflexivity.
    - (* CreateClass *) intros c n t w b st H K q _ Q. apply create_class_lz. intro v. apply Q. apply final_away. reflexivity.
    - (* Create *) intros k c n w b st H K q _ Q. destruct (home (Create k c n)) as [l|] eqn:E.
      + assert (l = LItems c k) as -> by (destruct k, n; cbn in E; congruence). apply create_here; [exact E|]. intro i. apply Q.
        exact (final_some _ _ _ E).
      + apply create_away; [exact (away _ E)|]. intro v. apply Q. exact (final_away _ _ E).
    - (* Count *) intros c k w b st H K q _ Q. apply check_lz; [exact I|]. apply look_here; [reflexivity|]. intro v. eexists.
      split; [|apply Q; apply (final_some _ _ (LItems c k)); reflexivity]. split; reflexivity.
    - (* At *) intros c k i w b st H K q _ Q. apply check_lz; [exact I|]. apply look_here; [reflexivity|]. intro v. eexists.
      split; [|apply Q; apply (final_some _ _ (LItems c k)); reflexivity]. split; reflexivity.
    - (* Get *) intros c k n w b st H K q _ Q. apply check_lz; [exact I|]. destruct (n =? 0) eqn:En.
      + apply Q. apply (final_none _ _ (LItems c k)); [reflexivity|]. intro t. split; [reflexivity|]. exists None. rewrite En. split; reflexivity.
      + apply look_here; [reflexivity|]. intro v. eexists. split; [|apply Q; apply (final_some _ _ (LItems c k)); reflexivity].
        split; [reflexivity|]. eexists. split; [reflexivity|]. rewrite En. apply assoc_finds.
    - (* GetMember *) intros k c n w b st H K q _ Q. destruct (n =? 0); [apply Q; apply final_away; reflexivity|]. cbn [lz]. split; [exact I|].
      split; [reflexivity|]. intro v. apply Q. apply final_away. reflexivity.
    - (* GetConstructor *) intros c n w b st H K q _ Q. apply check_lz; [exact I|]. apply look_here; [reflexivity|]. intro v. eexists.
      split; [|apply Q; apply (final_some _ _ (LItems c Constructor)); reflexivity]. split; [reflexivity|]. eexists. split; [reflexivity|]. apply assoc_finds.
    - (* EachClass *) intros c f IHf w b st H K q [_ O] Q. apply check_lz; [exact I|].
      assert (E : forall v, lz ((EachClass c f, b, None) :: st) H None K (q v)) by (intro v; apply Q; apply final_away; reflexivity).
      apply for_each_lz; [|apply E]. intros r more Hm. apply (IHf (snd r) w); [apply O|exact I|]. intros [|]; [exact Hm|]. apply unlock_lz. apply E.
    - (* EachMethod *) intros c f IHf w b st H K q [_ O] Q. apply check_lz; [exact I|].
      assert (E : forall v, lz ((EachMethod c f, b, None) :: st) H None K (q v)) by (intro v; apply Q; apply final_away; reflexivity).
      apply for_each_lz; [|apply E]. intros r more Hm. apply (IHf (snd r) w); [apply O|exact I|]. intros [|]; [exact Hm|]. apply unlock_lz. apply E.
    - (* BaseCount *) intros c w b st H K q _ Q. apply check_lz; [exact I|]. apply look_here; [reflexivity|]. intro v. eexists.
      split; [|apply Q; apply (final_some _ _ (LBases c)); reflexivity]. split; reflexivity.
    - (* BaseAt *) intros c i w b st H K q _ Q. apply check_lz; [exact I|]. apply look_here; [reflexivity|]. intro v.
      exists (VOpt (option_map fst (nth_error (rows v) i))). split; [split; reflexivity|]. destruct (nth_error (rows v) i); cbn [option_map].
      + cbn [lz]. intros _. apply Q. apply (final_some _ _ (LBases c)). reflexivity.
      + apply Q. apply (final_some _ _ (LBases c)). reflexivity.
    - (* DerivedCount *) intros c w b st H K q _ Q. apply check_lz; [exact I|]. apply look_here; [reflexivity|]. intro v. eexists.
      split; [|apply Q; apply (final_some _ _ (LDerived c)); reflexivity]. split; reflexivity.
    - (* DerivedAt *) intros c i w b st H K q _ Q. apply check_lz; [exact I|]. apply look_here; [reflexivity|]. intro v.
      exists (VOpt (option_map fst (nth_error (rows v) i))). split; [split; reflexivity|]. destruct (nth_error (rows v) i); cbn [option_map];
        apply Q; apply (final_some _ _ (LDerived c)); reflexivity.
    - (* AddBase *) intros c t w b st H K q _ Q.
      assert (E : forall v, lz ((AddBase c t, b, None) :: st) H None K (q v)) by (intro v; apply Q; apply final_away; reflexivity).
      unfold add_base. destruct (t =? 0); [apply E|]. cbn [lz]. intro m. destruct (opt m) as [d|]; [|apply E].
      assert (D : lz ((AddBase c t, b, None) :: st) H None K (add_row (KDerived d) (LDerived d) c c (q VUnit))).
      { apply add_part; try reflexivity; try apply E; [apply away; reflexivity|right; exists d; split; reflexivity]. }
      apply add_part; try reflexivity; try exact D; [apply away; reflexivity|left; split; reflexivity].
    - intros c d w b st H K q _ Q. cbn [lz]. split; [exact I|]. split; [reflexivity|]. intro v. apply Q. apply final_away. reflexivity.
    - intros c d w b st H K q _ Q. cbn [lz]. split; [exact I|]. split; [reflexivity|]. intro v. apply Q. apply final_away. reflexivity.
    - intros i w b st H K q _ Q. cbn [lz]. split; [exact I|]. split; [reflexivity|]. intro v. apply Q. apply final_away. reflexivity.
    - (* Size *) intros x w b st H K q _ Q. apply check_list_lz; [exact I|]. apply look_here; [reflexivity|]. intro v. eexists.
      split; [|apply Q; apply (final_some _ _ (LNames x)); reflexivity]. split; reflexivity.
    - (* Value *) intros x i w b st H K q _ Q. apply check_list_lz; [exact I|]. apply look_here; [reflexivity|]. intro v.
      exists (VRef (if i <? length (rows v) then Some (x, i) else None)). split; [|apply Q; apply (final_some _ _ (LNames x)); reflexivity].
      split; [reflexivity|]. f_equal. destruct (nth_error (rows v) i) eqn:E.
      + assert (L : i < length (rows v)) by (apply nth_error_Some; congruence). apply Nat.ltb_lt in L. rewrite L. reflexivity.
      + apply nth_error_None in E. apply Nat.ltb_ge in E. rewrite E. reflexivity.
    - (* ValueByName *) intros x n w b st H K q _ Q. apply check_list_lz; [exact I|]. destruct (n =? 0) eqn:En.
      + apply Q. apply (final_none _ _ (LNames x)); [reflexivity|]. intro t. split; [reflexivity|]. exists None. rewrite En. split; reflexivity.
      + apply look_here; [reflexivity|]. intro v. eexists. split; [|apply Q; apply (final_some _ _ (LNames x)); reflexivity].
        split; [reflexivity|]. eexists. split; [reflexivity|]. rewrite En. apply assoc_finds.
    - (* Name *) intros x i w b st H K q _ Q. apply check_list_lz; [exact I|]. apply look_here; [reflexivity|]. intro v. eexists.
      split; [|apply Q; apply (final_some _ _ (LNames x)); reflexivity]. split; reflexivity.
    - (* EachValue *) intros x f IHf w b st H K q [_ O] Q. apply check_list_lz; [exact I|].
      assert (E : forall v, lz ((EachValue x f, b, None) :: st) H None K (q v)) by (intro v; apply Q; apply final_away; reflexivity).
      apply for_each_lz; [|apply E]. intros r more Hm. apply (IHf (fst r) (snd r) (x :: w)); [apply O|exact I|]. intros [|]; [exact Hm|].
      apply unlock_lz. apply E.
    - (* SetValue *) intros x n u w b st H K q _ Q. unfold set_value. destruct (n =? 0) eqn:En.
      + apply Q. apply (final_none _ _ (LNames x)); [reflexivity|]. intro t. cbn [effect]. rewrite En. split; reflexivity.
      + cbn [lz]. intros v _. assert (S : sole ((KNames x, Exclusive) :: H) (LNames x)) by (exists (KNames x); split; [reflexivity|left; reflexivity]).
        destruct (assoc n (rows v)) as [i|] eqn:Ea.
        * right. right. exists (SetValue x n u), b, st, VUnit. split; [reflexivity|]. split; [reflexivity|]. split.
          -- cbn [effect]. rewrite En. split; [reflexivity|]. left. split; [reflexivity|]. exists i. exact (assoc_some _ _ _ Ea).
          -- cbn [lz table]. split; [discriminate|]. split; [left; reflexivity|]. rewrite rem_head. apply (lz_more _ _ _ _ K); [apply mind_incl|].
             apply Q. apply (final_some _ _ (LNames x)). reflexivity.
        * right. left. split; [exact S|]. cbn [lz table]. split; [reflexivity|]. split; [discriminate|].
          exists v. split; [reflexivity|]. split; [exact S|]. left. exists (SetValue x n u), b, st, VUnit.
          split; [reflexivity|]. split; [reflexivity|]. split.
          -- cbn [effect]. rewrite En. split; [reflexivity|]. right. split; [exact (assoc_none _ _ Ea)|reflexivity].
          -- split; [left; reflexivity|]. rewrite rem_head. apply (lz_more _ _ _ _ K); [apply mind_incl|].
             apply Q. apply (final_some _ _ (LNames x)). reflexivity.
    - (* Use *) intros r w b st H K q _ Q.
      assert (E : forall v, lz ((Use r, b, None) :: st) H None K (q v)) by (intro v; apply Q; apply final_away; reflexivity).
      destruct r as [[x n]|]; [|apply E]. apply load_lz. intros v _. apply E.
    - (* Defer *) intros c d w b st H K q _ Q.
      assert (E : forall v, lz ((Defer c d, b, None) :: st) H None K (q v)) by (intro v; apply Q; apply final_away; reflexivity).
      apply load_lz. intros v _. destruct (opt v); cbn [lz table].
      + split; [exact I|]. split; [reflexivity|]. intros _. apply E.
      + split; [discriminate|]. apply E.
    - intros c w b st H K q _ Q. cbn [lz]. split; [exact I|]. split; [reflexivity|]. intro v. apply Q. apply final_away. reflexivity.
  Qed.

  Lemma unfold_lz s st H K q : open st -> (forall v, lz st H None K (q v)) -> lz st H None K (unfold defs s q).
  Proof.
    intros O Q. destruct s as [i|d c|k c n|c b|c b|c]; cbn [unfold].
    - assert (R : lz st H None K (Load (LQual i) q)) by (apply load_lz; intros w _; apply Q).
      apply load_lz. intros v _. destruct (path v); [|exact R]. apply load_lz. intros s _.
      assert (N : lz st H None K (Store (LQual i) (VPath []) (Load (LQual i) q))) by (cbn [lz table]; split; [discriminate|exact R]).
      destruct s as [| | | | | | |k n o| |]; try exact N. destruct o; [|exact N]. cbn [lz]. split; [exact O|]. split; [reflexivity|]. intro w.
      cbn [table]. split; [discriminate|exact R].
    - apply (proj1 den_lz (defs d c) []); [apply Hdefs|exact O|]. intros _. apply Q.
    - apply find_method_away; [exact O|]. intro v. destruct (opt v); [apply Q|]. apply load_lz. intros s _.
      destruct s as [| | | | | | |k' n' o| |]; try apply Q. destruct k'; try apply Q. apply for_each_lz; [|apply Q].
      intros r more Hm. unfold direct_base. cbn [lz]. intro v'. destruct (opt v'); [|exact I]. cbn [lz]. split; [exact O|]. split; [reflexivity|].
      intro w. destruct (opt w); [apply unlock_lz; apply Q|exact Hm].
    - destruct (c =? b); [apply Q|]. apply check_lz; [exact O|]. apply for_each_lz; [|apply Q].
      intros r more Hm. unfold direct_base. cbn [lz]. intro v'. destruct (opt v'); [|exact I]. cbn [lz]. split; [exact O|]. split; [reflexivity|].
      intro w. destruct (flag w); [apply unlock_lz; apply Q|exact Hm].
    - destruct (c =? b); [apply Q|]. apply check_lz; [exact O|]. apply for_each_lz; [|apply Q].
      intros r more Hm. unfold direct_base. cbn [lz]. intro v'. destruct (opt v'); [|exact I]. cbn [lz]. split; [exact O|]. split; [reflexivity|].
      intro w. destruct (flag w); [|exact Hm]. cbn [lz]. split; [exact O|]. split; [reflexivity|]. intro u. apply unlock_lz. apply Q.
    - apply check_lz; [exact O|]. apply for_each_lz; [intros r more Hm; cbn [lz]; split; [exact O|]; split; [reflexivity|]; intros _; exact Hm|].
      apply for_each_lz; [intros r more Hm; cbn [lz]; split; [exact O|]; split; [reflexivity|]; intros _; exact Hm|]. apply Q.
  Qed.
End Atomic.
