(** Proofs for MakeProps. *)
From Coq Require Import NArith List Bool Arith Lia.
From Verif Require Import TypesModel TypesSpec MakeModel MakeSpec.
Import ListNotations.

(** *** Lists *)

Lemma set_changed {A} (l : list A) i x : set l i x = changed l i x.
Proof. revert i. induction l as [|a l IH]; intros [|i]; cbn; congruence. Qed.

Lemma set_length {A} (l : list A) i x : length (set l i x) = length l.
Proof. revert i. induction l as [|a l IH]; intros [|i]; cbn; auto. Qed.

Lemma nth_set {A} (l : list A) i x j : nth_error (set l i x) j =
  if j =? i then (if j <? length l then Some x else None) else nth_error l j.
Proof.
  revert i j. induction l as [|a l IH]; intros [|i] [|j]; cbn; auto.
  - destruct (j =? i); reflexivity.
  - rewrite IH. reflexivity.
Qed.

Lemma nth_set_same {A} (l : list A) i x : i < length l -> nth_error (set l i x) i = Some x.
Proof. intro H. rewrite nth_set, Nat.eqb_refl. apply Nat.ltb_lt in H. rewrite H. reflexivity. Qed.

Lemma nth_set_other {A} (l : list A) i x j : j <> i -> nth_error (set l i x) j = nth_error l j.
Proof. intro H. rewrite nth_set. apply Nat.eqb_neq in H. rewrite H. reflexivity. Qed.

Lemma set_last {A} (l : list A) a x : set (l ++ [a]) (length l) x = l ++ [x].
Proof. induction l as [|b l IH]; cbn; congruence. Qed.

Lemma set_middle {A} (l r : list A) a x : set (l ++ a :: r) (length l) x = l ++ x :: r.
Proof. induction l as [|b l IH]; cbn; congruence. Qed.

Lemma set_app {A} (l r : list A) i x : i < length l -> set (l ++ r) i x = set l i x ++ r.
Proof. revert i. induction l as [|b l IH]; intros [|i] H; cbn in *; try lia; auto. rewrite IH; auto. lia. Qed.

Lemma set_set {A} (l : list A) i x y : set (set l i x) i y = set l i y.
Proof. revert i. induction l as [|a l IH]; intros [|i]; cbn; congruence. Qed.

Lemma nth_last {A} (l : list A) a : nth_error (l ++ [a]) (length l) = Some a.
Proof. rewrite nth_error_app2 by lia. rewrite Nat.sub_diag. reflexivity. Qed.

Lemma nth_middle {A} (l r : list A) a : nth_error (l ++ a :: r) (length l) = Some a.
Proof. rewrite nth_error_app2 by lia. rewrite Nat.sub_diag. reflexivity. Qed.

Lemma nth_lt {A} (l : list A) i a : nth_error l i = Some a -> i < length l.
Proof. intro H. apply nth_error_Some. congruence. Qed.

Lemma nth_app_l {A} (l r : list A) i a : nth_error l i = Some a -> nth_error (l ++ r) i = Some a.
Proof. intro H. rewrite nth_error_app1; [exact H|]. apply nth_lt in H. exact H. Qed.

Lemma nth_app_last {A} (l : list A) a i b : nth_error (l ++ [a]) i = Some b -> nth_error l i = Some b \/ (i = length l /\ a = b).
Proof.
  intro H. destruct (Nat.lt_ge_cases i (length l)) as [L|L].
  - left. rewrite nth_error_app1 in H; auto.
  - right. rewrite nth_error_app2 in H by lia. destruct (i - length l) as [|k] eqn:E; cbn in H.
    + split; [lia|congruence].
    + destruct k; discriminate H.
Qed.

Lemma in_use_app h k : in_use (h ++ k) = in_use h + in_use k.
Proof. induction h as [|[b|] h IH]; cbn; lia. Qed.
Lemma alive_app h k : alive (h ++ k) = alive h + alive k.
Proof. induction h as [|[b|] h IH]; cbn; lia. Qed.
Lemma in_use_same h i b c : nth_error h i = Some (Some b) -> in_use (set h i (Some c)) = in_use h.
Proof. revert i. induction h as [|[a|] h IH]; intros [|i] H; cbn in *; try discriminate H; auto. Qed.
Lemma in_use_none h i b : nth_error h i = Some (Some b) -> S (in_use (set h i None)) = in_use h.
Proof. revert i. induction h as [|[a|] h IH]; intros [|i] H; cbn in *; try discriminate H; auto. Qed.
Lemma alive_same h i b c : nth_error h i = Some (Some b) -> alive (changed h i (Some c)) = alive h.
Proof. revert i. induction h as [|[a|] h IH]; intros [|i] H; cbn in *; try discriminate H; auto. Qed.
Lemma alive_none h i b : nth_error h i = Some (Some b) -> S (alive (changed h i None)) = alive h.
Proof. revert i. induction h as [|[a|] h IH]; intros [|i] H; cbn in *; try discriminate H; auto. Qed.

Lemma f2_length {A B} (P : A -> B -> Prop) l k : Forall2 P l k -> length l = length k.
Proof. induction 1; cbn; congruence. Qed.

Lemma repeat_map {A B} (f : A -> B) a n : map f (repeat a n) = repeat (f a) n.
Proof. induction n as [|n IH]; cbn; congruence. Qed.

(** *** Types *)

Lemma similar_same t u : similar t u -> remove_all_cv t = remove_all_cv u.
Proof. induction 1; cbn; congruence. Qed.

Lemma is_array_cv t : is_array (remove_all_cv t) = is_array t.
Proof. destruct t; reflexivity. Qed.

Lemma array_is q : is_array (remove_all_cv (q_ty q)) = true <-> array q.
Proof.
  rewrite is_array_cv. unfold array. destruct (q_ty q) as [c v b|c v t|t n]; cbn; split; intro H; try discriminate H; eauto.
  - destruct H as (t' & n' & E). discriminate E.
  - destruct H as (t' & n' & E). discriminate E.
Qed.

Section Facts.
  Variable cls : base -> traits.

  Lemma consists_cv t n r : consists cls t n r -> number_of (remove_all_cv t) = n /\ traits_of cls (remove_all_cv t) = r.
  Proof.
    induction 1 as [c v b|c v t|t n k r _ [E1 E2]]; cbn; auto.
  Qed.

  Lemma consists_some t : exists n r, consists cls t n r.
  Proof. induction t as [c v b|c v t _|t (k & r & H) n]; eauto using consists. Qed.

  Lemma consists_similar t u n r : similar t u -> consists cls t n r -> consists cls u n r.
  Proof. intros S. revert n r. induction S; intros n' r' H; inversion H; subst; eauto using consists. Qed.

  Lemma consists_one t n r : consists cls t n r -> is_array t = false -> n = 1.
  Proof. destruct 1; cbn; auto; discriminate. Qed.

  Lemma consists_same t n r n' r' : consists cls t n r -> consists cls t n' r' -> n = n' /\ r = r'.
  Proof. intros H H'. apply consists_cv in H. apply consists_cv in H'. destruct H, H'. split; congruence. Qed.

  (** *** Building *)

  Lemma throws_spec sure s b s' : throws sure s = (b, s') -> heap s' = heap s /\ log s' = log s /\ (sure = true -> b = false).
  Proof.
    unfold throws. destruct sure.
    - intros [= <- <-]. auto.
    - destruct (coins s) as [|c r]; intros [= <- <-]; cbn; repeat split; auto; discriminate.
  Qed.

  Lemma build_spec sure h pre post c s : heap s = h ++ [Some (pre ++ Raw :: post)] ->
    (exists s', build sure (length h) (length pre) c s = Ok tt s' /\ heap s' = h ++ [Some (pre ++ c :: post)]
       /\ log s' = log s ++ [Built (length h) (length pre)])
    \/ (sure = false /\ exists s', build sure (length h) (length pre) c s = Exn s' /\ heap s' = heap s /\ log s' = log s).
  Proof.
    intro E. unfold build, block. rewrite E, nth_last, nth_middle.
    destruct (throws sure s) as [b s'] eqn:T. destruct (throws_spec _ _ _ _ T) as (H1 & H2 & H3).
    destruct b.
    - right. split; [destruct sure; auto; exfalso; specialize (H3 eq_refl); discriminate|]. exists s'. split; [reflexivity|split; [congruence|exact H2]].
    - left. eexists. split; [reflexivity|]. unfold put_cell, block. rewrite H1, E, nth_last. unfold put. cbn. rewrite H1, E, set_last, set_middle, H2.
      split; reflexivity.
  Qed.

  Lemma build_all_spec sure h n : forall pre c s, heap s = h ++ [Some (pre ++ repeat Raw n)] ->
    (exists s', build_all sure (length h) (length pre) n c s = Ok tt s' /\ heap s' = h ++ [Some (pre ++ repeat c n)]
       /\ log s' = log s ++ map (Built (length h)) (seq (length pre) n))
    \/ (sure = false /\ exists s' b k, build_all sure (length h) (length pre) n c s = Exn s' /\ heap s' = h ++ [Some b]
       /\ log s' = log s ++ map (Built (length h)) (seq (length pre) k)).
  Proof.
    induction n as [|n IH]; intros pre c s E; cbn [build_all repeat].
    - left. exists s. cbn. rewrite !app_nil_r. split; [reflexivity|]. split; [|reflexivity]. rewrite E. cbn. rewrite app_nil_r. reflexivity.
    - destruct (build_spec sure h pre (repeat Raw n) c s E) as [(s1 & E1 & H1 & L1)|(Su & s1 & E1 & H1 & L1)]; rewrite E1; cbn [bind].
      + destruct (IH (pre ++ [c]) c s1) as [(s2 & E2 & H2 & L2)|(Su & s2 & b & k & E2 & H2 & L2)].
        * rewrite H1. rewrite <- app_assoc. reflexivity.
        * left. exists s2. rewrite app_length, Nat.add_comm in E2, L2. cbn in E2, L2. split; [exact E2|].
          rewrite <- app_assoc in H2. split; [exact H2|]. rewrite L2, L1, <- app_assoc. reflexivity.
        * right. split; [exact Su|]. rewrite app_length, Nat.add_comm in E2, L2. cbn in E2, L2. exists s2, b, (S k). split; [exact E2|].
          split; [exact H2|]. rewrite L2, L1, <- app_assoc. reflexivity.
      + right. split; [exact Su|]. exists s1, (pre ++ repeat Raw (S n)), 0. split; [reflexivity|]. split; [rewrite H1; exact E|].
        cbn. rewrite app_nil_r. exact L1.
  Qed.

  Lemma stored_copied c k : stored c k -> c <> Unset -> copied k = Some k.
  Proof. destruct c, k; cbn; intros H N; try contradiction; congruence. Qed.

  Lemma assign_all_spec h : forall cs pre s, Forall (fun k => copied k = Some k) cs -> heap s = h ++ [Some (pre ++ repeat Raw (length cs))] ->
    exists s', assign_all (length h) (length pre) cs s = Ok tt s' /\ heap s' = h ++ [Some (pre ++ cs)]
      /\ log s' = log s ++ map (Built (length h)) (seq (length pre) (length cs)).
  Proof.
    induction cs as [|c cs IH]; intros pre s F E; cbn [assign_all].
    - exists s. cbn in *. rewrite !app_nil_r in *. auto.
    - inversion F as [|? ? F1 F2]; subst. rewrite F1. unfold block. rewrite E, nth_last. cbn [length repeat]. rewrite nth_middle.
      destruct (IH (pre ++ [c]) (put_cell s (length h) (length pre) c [Built (length h) (length pre)])) as (s' & E' & H' & L').
      + exact F2.
      + unfold put_cell, block. rewrite E, nth_last. cbn. rewrite E, set_last. cbn. rewrite set_middle. rewrite <- app_assoc. reflexivity.
      + exists s'. rewrite app_length, Nat.add_comm in E', L'. cbn in E', L'. split; [exact E'|]. split; [rewrite H', <- app_assoc; reflexivity|].
        rewrite L'. unfold put_cell, block. rewrite E, nth_last. cbn. rewrite <- app_assoc. reflexivity.
  Qed.

  (** *** Ending *)

  Lemma destroy_all_spec p : forall cs i s, nth_error (heap s) p = Some (Some (repeat Raw i ++ cs)) ->
    Forall (fun k => exists c, stored c k) cs ->
    exists s', destroy_all p i (length cs) s = Ok tt s' /\ heap s' = set (heap s) p (Some (repeat Raw i ++ repeat Raw (length cs)))
      /\ log s' = log s ++ map (Ended p) (seq i (length cs)).
  Proof.
    induction cs as [|c cs IH]; intros i s E F; cbn [destroy_all length].
    - exists s. cbn. rewrite app_nil_r in *. split; [reflexivity|]. split; [|rewrite app_nil_r; reflexivity].
      clear - E. revert p E. induction (heap s) as [|a h IH]; intros [|p] E; cbn in *; try discriminate E; [congruence|]. rewrite <- IH; auto.
    - inversion F as [|? ? [k F1] F2]; subst. unfold block. rewrite E.
      assert (L : length (repeat Raw i) = i) by apply repeat_length.
      assert (E1 : nth_error (repeat Raw i ++ c :: cs) i = Some c) by (rewrite <- L at 2; apply nth_middle). rewrite E1.
      assert (E2 : set (repeat Raw i ++ c :: cs) i Raw = repeat Raw (S i) ++ cs).
      { rewrite <- L at 2. rewrite set_middle. change (Raw :: cs) with ([Raw] ++ cs). rewrite app_assoc. f_equal.
        rewrite <- repeat_cons. reflexivity. }
      pose (s1 := put_cell s p i Raw [Ended p i]).
      assert (H1 : heap s1 = set (heap s) p (Some (repeat Raw (S i) ++ cs))).
      { unfold s1, put_cell, block. rewrite E. cbn [put heap]. rewrite E2. reflexivity. }
      assert (L1 : log s1 = log s ++ [Ended p i]) by (unfold s1, put_cell, block; rewrite E; reflexivity).
      destruct (IH (S i) s1) as (s' & E' & H' & L').
      + rewrite H1. apply nth_set_same. apply nth_lt in E. exact E.
      + exact F2.
      + exists s'. fold s1.
        assert (Q : heap s' = set (heap s) p (Some (repeat Raw i ++ Raw :: repeat Raw (length cs)))).
        { rewrite H', H1, set_set. f_equal. f_equal. change (Raw :: repeat Raw (length cs)) with ([Raw] ++ repeat Raw (length cs)).
          rewrite app_assoc. f_equal. apply (repeat_cons i Raw). }
        assert (Q' : log s' = log s ++ Ended p i :: map (Ended p) (seq (S i) (length cs))) by (rewrite L', L1, <- app_assoc; reflexivity).
        destruct k, c; cbn in F1; try contradiction; exact (conj E' (conj Q Q')).
  Qed.

  Lemma stored_some cs b : Forall2 stored cs b -> Forall (fun k => exists c, stored c k) b.
  Proof. induction 1; eauto. Qed.

  Lemma destroy_spec t u n r p cs b s : similar u t -> consists cls u n r -> length cs = n -> Forall2 stored cs b ->
    nth_error (heap s) p = Some (Some b) ->
    exists s' b', destroy cls (remove_all_cv t) p s = Ok tt s' /\ heap s' = set (heap s) p (Some b')
      /\ log s' = log s ++ (if trivial_destroy r then [] else map (Ended p) (seq 0 n)).
  Proof.
    intros Si C Le F E. rewrite <- (similar_same _ _ Si). destruct (consists_cv _ _ _ C) as [E1 E2]. unfold destroy. rewrite E1, E2.
    destruct (trivial_destroy r).
    - exists s, b. split; [reflexivity|]. split; [|rewrite app_nil_r; reflexivity].
      clear - E. revert p E. induction (heap s) as [|a h IH]; intros [|p] E; cbn in *; try discriminate E; [congruence|]. rewrite <- IH; auto.
    - assert (Lb : n = length b) by (apply f2_length in F; congruence). rewrite Lb.
      destruct (destroy_all_spec p b 0 s E (stored_some _ _ F)) as (s' & Es & Hs & Ls). exists s'. eauto.
  Qed.
  (** *** Making *)

  (** How a call of construct ends: with the new object in storage of its own, or with an exception. *)
  Definition made (q : qty) (s : state) (m : out (option nat)) (h' : list (option (list cell))) (cs : list content) (built : list nat) : Prop :=
    exists s' b, m = Ok (Some (length (heap s))) s' /\ heap s' = h' ++ [Some b] /\ Forall2 stored cs b
      /\ log s' = log s ++ Allocated (length (heap s)) :: map (Built (length (heap s))) built.
  Definition threw (q : qty) (s : state) (m : out (option nat)) : Prop :=
    exists s' b k, m = Exn s' /\ heap s' = heap s ++ [Some b]
      /\ log s' = log s ++ Allocated (length (heap s)) :: map (Built (length (heap s))) (seq 0 k).

  Lemma proper_managed q : proper cls q -> managed q = Some (remove_all_cv (q_ty q)).
  Proof.
    intros [P _]. unfold managed. destruct (q_ty q) as [c v b|c v t|t n] eqn:E; auto.
    destruct (base_kind_eq_dec (b_kind b) KVoid) as [K|K]; [|reflexivity]. exfalso. exact (P _ _ _ eq_refl K).
  Qed.

  Lemma stored_repeat c k n : stored c k -> Forall2 stored (repeat c n) (repeat k n).
  Proof. intro H. induction n as [|n IH]; cbn; auto. Qed.

  Definition room (q : qty) (s : state) (n : nat) : state :=
    State (heap s ++ [Some (repeat Raw n)]) (coins s) (log s ++ [Allocated (length (heap s))]).

  Lemma construct_room q n r copy movable s : proper cls q -> consists cls (q_ty q) n r ->
    construct cls q copy movable s =
      bind (match copy with
            | None => default_construct cls (remove_all_cv (q_ty q)) (length (heap s)) (room q s n)
            | Some src => if movable then move_or_copy cls (remove_all_cv (q_ty q)) src (length (heap s)) (room q s n)
                          else copy_construct cls (remove_all_cv (q_ty q)) src (length (heap s)) (room q s n)
            end) (fun _ s2 => Ok (Some (length (heap s))) s2).
  Proof.
    intros P C. unfold construct. rewrite (proper_managed _ P). unfold allocate. destruct (consists_cv _ _ _ C) as [E1 E2].
    rewrite E1, E2. destruct P as [_ P]. rewrite (P _ _ C). cbn [bind]. reflexivity.
  Qed.

  Lemma make_spec q n r s : proper cls q -> consists cls (q_ty q) n r ->
    (has_default r = true /\ made q s (construct cls q None false s) (heap s)
       (repeat (if trivial_default r then Unset else Value (initial r)) n) (if trivial_default r then [] else seq 0 n))
    \/ ((has_default r = false \/ (trivial_default r = false /\ sure_default r = false)) /\ threw q s (construct cls q None false s)).
  Proof.
    intros P C. rewrite (construct_room _ _ _ _ _ _ P C). destruct (consists_cv _ _ _ C) as [E1 E2]. unfold default_construct.
    rewrite E1, E2. destruct (has_default r) eqn:D.
    - destruct (trivial_default r) eqn:T.
      + left. split; [reflexivity|]. unfold loosen, block. cbn [room heap]. rewrite nth_last. cbn [bind]. eexists _, _. split; [reflexivity|].
        unfold put. cbn [heap log room]. rewrite set_last, repeat_map. split; [reflexivity|]. split; [apply stored_repeat; exact I|].
        rewrite app_nil_r. reflexivity.
      + destruct (build_all_spec (sure_default r) (heap s) n [] (Val (initial r)) (room q s n) eq_refl)
          as [(s' & E & H & L)|(Su & s' & b & k & E & H & L)]; cbn [length] in E; rewrite E; cbn [bind].
        * left. split; [reflexivity|]. exists s', (repeat (Val (initial r)) n). split; [reflexivity|]. split; [exact H|].
          split; [apply stored_repeat; reflexivity|]. rewrite L. cbn [room log]. rewrite <- app_assoc. reflexivity.
        * right. split; [auto|]. exists s', b, k. split; [reflexivity|]. split; [exact H|]. rewrite L. cbn [room log]. rewrite <- app_assoc. reflexivity.
    - right. split; [auto|]. cbn [bind]. exists (room q s n), (repeat Raw n), 0. split; [reflexivity|]. split; reflexivity.
  Qed.

  (** Onto the new storage from the objects of another. *)
  Lemma one_spec q s src cs b (sure : bool) : nth_error (heap s) src = Some (Some b) -> Forall2 stored cs b -> ~ In Unset cs -> length cs = 1 ->
    exists c k, cs = [c] /\ b = [k] /\ block (room q s 1) src = Some [k] /\ copied k = Some k /\
      ((exists s', build sure (length (heap s)) 0 k (room q s 1) = Ok tt s' /\ heap s' = heap s ++ [Some [k]]
         /\ log s' = log s ++ [Allocated (length (heap s)); Built (length (heap s)) 0])
       \/ (sure = false /\ exists s', build sure (length (heap s)) 0 k (room q s 1) = Exn s' /\ heap s' = heap s ++ [Some [Raw]]
         /\ log s' = log s ++ [Allocated (length (heap s))])).
  Proof.
    intros E F U Le. destruct cs as [|c [|c' cs]]; try discriminate Le. inversion F as [|? k ? ? F1 F2]; subst. inversion F2; subst.
    exists c, k. split; [reflexivity|]. split; [reflexivity|]. split.
    { unfold block. cbn [room heap]. rewrite (nth_app_l _ _ _ _ E). reflexivity. }
    split; [apply (stored_copied _ _ F1); intros ->; apply U; left; reflexivity|].
    destruct (build_spec sure (heap s) [] [] k (room q s 1) eq_refl) as [(s' & E' & H & L)|(Su & s' & E' & H & L)].
    - left. exists s'. split; [exact E'|]. split; [exact H|]. rewrite L. cbn [room log]. rewrite <- app_assoc. reflexivity.
    - right. split; [exact Su|]. exists s'. split; [exact E'|]. split; [exact H|]. exact L.
  Qed.

  Lemma array_copy_spec q n r s src cs b : consists cls (q_ty q) n r -> trivial_copy r = true ->
    nth_error (heap s) src = Some (Some b) -> Forall2 stored cs b -> ~ In Unset cs -> length cs = n ->
    exists s', array_copy cls (remove_all_cv (q_ty q)) src (length (heap s)) (room q s n) = Ok tt s' /\ heap s' = heap s ++ [Some b]
      /\ log s' = log s ++ Allocated (length (heap s)) :: map (Built (length (heap s))) (seq 0 n).
  Proof.
    intros C T E F U Le. destruct (consists_cv _ _ _ C) as [E1 E2]. unfold array_copy, block. cbn [room heap].
    rewrite (nth_app_l _ _ _ _ E), E1, E2, T. assert (Lb : length b = n) by (apply f2_length in F; congruence).
    rewrite firstn_all2 by lia.
    destruct (assign_all_spec (heap s) b [] (room q s n)) as (s' & E' & H & L).
    - clear - F U. induction F as [|c k cs b F1 F2 IH]; constructor.
      + apply (stored_copied _ _ F1). intros ->. apply U. left. reflexivity.
      + apply IH. intro H. apply U. right. exact H.
    - rewrite Lb. reflexivity.
    - exists s'. split; [exact E'|]. split; [exact H|]. rewrite L, Lb. cbn [room log]. rewrite <- app_assoc. reflexivity.
  Qed.

  Lemma copy_spec q n r s src cs b : proper cls q -> consists cls (q_ty q) n r -> (array q -> trivial_copy r = true) ->
    nth_error (heap s) src = Some (Some b) -> Forall2 stored cs b -> ~ In Unset cs -> length cs = n ->
    let m := bind (copy_construct cls (remove_all_cv (q_ty q)) src (length (heap s)) (room q s n)) (fun _ s2 => Ok (Some (length (heap s))) s2) in
    (has_copy r = true /\ made q s m (heap s) cs (seq 0 n))
    \/ ((has_copy r = false \/ (~ array q /\ sure_copy r = false)) /\ threw q s m).
  Proof.
    intros P C T E F U Le. unfold copy_construct. destruct (consists_cv _ _ _ C) as [E1 E2]. rewrite E2.
    destruct (has_copy r) eqn:D.
    - destruct (is_array (remove_all_cv (q_ty q))) eqn:A.
      + left. split; [reflexivity|]. destruct (array_copy_spec q n r s src cs b C (T (proj1 (array_is q) A)) E F U Le) as (s' & E' & H & L).
        rewrite E'. cbn [bind]. exists s', b. auto.
      + assert (n = 1) as -> by (apply (consists_one _ _ _ C); rewrite <- is_array_cv; exact A).
        destruct (one_spec q s src cs b (sure_copy r) E F U Le) as (c & k & -> & -> & Eb & Ec & [(s' & E' & H & L)|(Su & s' & E' & H & L)]);
          rewrite Eb, Ec, E'; cbn [bind].
        * left. split; [reflexivity|]. exists s', [k]. auto.
        * right. split; [right; split; [intro Q; apply array_is in Q; congruence|exact Su]|]. exists s', [Raw], 0. auto.
    - right. split; [auto|]. cbn [bind]. exists (room q s n), (repeat Raw n), 0. repeat split.
  Qed.

  Lemma move_spec q n r s src cs b : proper cls q -> consists cls (q_ty q) n r -> (array q -> trivial_copy r = true) ->
    nth_error (heap s) src = Some (Some b) -> Forall2 stored cs b -> ~ In Unset cs -> length cs = n ->
    let m := construct cls q (Some src) true s in
    (has_move r = true /\ (steals r = false \/ array q) /\ made q s m (heap s) cs (seq 0 n))
    \/ (has_move r = true /\ steals r = true /\ ~ array q /\ made q s m (set (heap s) src (Some [Hollow])) cs (seq 0 n))
    \/ (has_move r = false /\ has_copy r = true /\ made q s m (heap s) cs (seq 0 n))
    \/ (((has_move r = false /\ has_copy r = false) \/ (~ array q /\ has_move r = true /\ sure_move r = false)
        \/ (~ array q /\ has_move r = false /\ sure_copy r = false)) /\ threw q s m).
  Proof.
    intros P C T E F U Le. rewrite (construct_room _ _ _ _ _ _ P C). unfold move_or_copy. destruct (consists_cv _ _ _ C) as [E1 E2]. rewrite E2.
    destruct (has_move r) eqn:D.
    - unfold move_construct. rewrite E2, D. destruct (is_array (remove_all_cv (q_ty q))) eqn:A.
      + left. split; [reflexivity|]. split; [right; apply array_is; exact A|].
        destruct (array_copy_spec q n r s src cs b C (T (proj1 (array_is q) A)) E F U Le) as (s' & E' & H & L).
        rewrite E'. cbn [bind]. exists s', b. auto.
      + assert (NA : ~ array q) by (intro Q; apply array_is in Q; congruence).
        assert (n = 1) as -> by (apply (consists_one _ _ _ C); rewrite <- is_array_cv; exact A).
        destruct (one_spec q s src cs b (sure_move r) E F U Le) as (c & k & -> & -> & Eb & Ec & [(s' & E' & H & L)|(Su & s' & E' & H & L)]);
          rewrite Eb, Ec, E'; cbn [bind].
        * destruct (steals r) eqn:St.
          -- right. left. split; [reflexivity|]. split; [reflexivity|]. split; [exact NA|].
             eexists _, [k]. split; [reflexivity|]. unfold put_cell, block. rewrite H, (nth_app_l _ _ _ _ E). unfold put. cbn [heap log set].
             rewrite H, set_app by (apply nth_lt in E; exact E). split; [reflexivity|]. split; [exact F|]. rewrite L, <- app_assoc. reflexivity.
          -- left. split; [reflexivity|]. split; [auto|]. exists s', [k]. auto.
        * right. right. right. split; [auto|]. exists s', [Raw], 0. auto.
    - right. right. destruct (copy_spec q n r s src cs b P C T E F U Le) as [[Hc M]|[Hc Th]].
      + left. auto.
      + right. split; [|exact Th]. destruct Hc as [Hc|[NA Hc]]; auto.
  Qed.
End Facts.
