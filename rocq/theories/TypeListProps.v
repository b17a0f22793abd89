(** Property theorems C33: type lists obey list algebra. The specification is the standard library's
    [nth_error], [app], [removelast], [remove], [nodup], [filter], [fold_left], [fold_right], [Permutation]. *)
From Coq Require Import List Bool Arith ZArith Lia Permutation.
From Verif Require Import TypeListModel.
Import ListNotations.

Section P.
  Context {T : Type} (same : forall a b : T, {a = b} + {a <> b}).

  Lemma get_nth (l : list T) i : tl_get l i = nth_error l i.
  Proof. revert i. induction l as [|a l IH]; intros [|i]; cbn; auto. Qed.

  Lemma indexof_helper_spec (l : list T) v k :
    (exists n, nth_error l n = Some v /\ (forall m, m < n -> nth_error l m <> Some v) /\
               tl_indexof_helper same l v k = (k + Z.of_nat n)%Z)
    \/ (~ In v l /\ tl_indexof_helper same l v k = (-1)%Z).
  Proof.
    revert k. induction l as [|a l IH]; intro k; cbn [tl_indexof_helper].
    - right. auto.
    - destruct (same a v) as [->|Hne].
      + left. exists 0. repeat split; [intros m Hm; lia|lia].
      + destruct (IH (k + 1)%Z) as [(n & Hn & Hmin & E)|[Hni E]].
        * left. exists (S n). repeat split; [exact Hn| |rewrite E; lia].
          intros [|m] Hm; cbn; [congruence|apply Hmin; lia].
        * right. split; [|exact E]. intros [H|H]; contradiction.
  Qed.

  Lemma exists_iff (l : list T) v : tl_exists same l v = true <-> In v l.
  Proof.
    unfold tl_exists, tl_indexof. destruct (indexof_helper_spec l v 0) as [(n & Hn & _ & E)|[Hni E]]; rewrite E.
    - split; [intros _; eapply nth_error_In; eauto|intros _; apply Z.leb_le; lia].
    - split; [discriminate|contradiction].
  Qed.

  Lemma popback_helper_spec (p l : list T) : l <> [] -> tl_popback_helper p l = Some (p ++ removelast l).
  Proof.
    revert p. induction l as [|a l IH]; intros p H; [congruence|]. cbn [tl_popback_helper].
    destruct l as [|b l]; [cbn; rewrite app_nil_r; reflexivity|].
    rewrite IH by discriminate. rewrite <- app_assoc. reflexivity.
  Qed.

  Lemma remove_helper_app (p l : list T) v : tl_remove_helper same p l v = p ++ tl_remove_helper same [] l v.
  Proof.
    revert p. induction l as [|a l IH]; intro p; cbn; [symmetry; apply app_nil_r|].
    destruct (same a v); [reflexivity|]. rewrite (IH (p ++ [a])), (IH [a]), <- app_assoc. reflexivity.
  Qed.

  Lemma remove_absent (l : list T) v : ~ In v l -> tl_remove same l v = l.
  Proof.
    unfold tl_remove. induction l as [|a l IH]; cbn; [reflexivity|]. intro H. destruct (same a v) as [->|_]; [tauto|].
    rewrite remove_helper_app, IH by tauto. reflexivity.
  Qed.

  Lemma remove_first (l1 l2 : list T) v : ~ In v l1 -> tl_remove same (l1 ++ v :: l2) v = l1 ++ l2.
  Proof.
    unfold tl_remove. induction l1 as [|a l1 IH]; cbn; intro H.
    - destruct (same v v); [reflexivity|congruence].
    - destruct (same a v) as [->|_]; [tauto|]. rewrite remove_helper_app, IH by tauto. reflexivity.
  Qed.

  Lemma removeall_helper_spec (p l : list T) v : tl_removeall_helper same p l v = p ++ remove same v l.
  Proof.
    revert p. induction l as [|a l IH]; intro p; cbn; [symmetry; apply app_nil_r|].
    destruct (same a v) as [->|Hne].
    - destruct (same v v); [apply IH|congruence].
    - destruct (same v a); [congruence|]. rewrite IH, <- app_assoc. reflexivity.
  Qed.

  Lemma dedup_helper_spec (p l : list T) : tl_dedup_helper same p l = p ++ nodup same l.
  Proof.
    revert p. induction l as [|a l IH]; intro p; cbn; [symmetry; apply app_nil_r|].
    destruct (tl_exists same l a) eqn:E, (in_dec same a l) as [Hi|Hi].
    - apply IH.
    - apply exists_iff in E. contradiction.
    - exfalso. apply exists_iff in Hi. congruence.
    - rewrite IH, <- app_assoc. reflexivity.
  Qed.

  Lemma in_split_first (l : list T) v : In v l -> exists l1 l2, l = l1 ++ v :: l2 /\ ~ In v l1.
  Proof.
    induction l as [|a l IH]; intros H; [destruct H|]. destruct (same a v) as [->|Hne].
    - exists [], l. auto.
    - destruct H as [H|H]; [congruence|]. destruct (IH H) as (l1 & l2 & -> & Hni). exists (a :: l1), l2.
      split; [reflexivity|]. intros [E|E]; contradiction.
  Qed.

  Lemma unordered_spec (l1 l2 : list T) : tl_unorderedequal same l1 l2 = true <-> Permutation l1 l2.
  Proof.
    revert l2. induction l1 as [|a l1 IH]; intros [|b l2]; cbn [tl_unorderedequal].
    - split; [constructor|reflexivity].
    - split; [discriminate|]. intro H. apply Permutation_nil in H. discriminate.
    - split; [discriminate|]. intro H. apply Permutation_sym, Permutation_nil in H. discriminate.
    - destruct (tl_exists same (b :: l2) a) eqn:E.
      + apply exists_iff in E. destruct (in_split_first _ _ E) as (x & y & Exy & Hni). rewrite Exy.
        rewrite remove_first by exact Hni. rewrite IH. split; intro H.
        * apply Permutation_cons_app. exact H.
        * apply Permutation_cons_app_inv in H. exact H.
      + split; [discriminate|]. intro H. exfalso. assert (HI : In a (b :: l2)).
        { eapply Permutation_in; [exact H|left; reflexivity]. } apply exists_iff in HI. congruence.
  Qed.

  Lemma filter_helper_spec f (p l : list T) : tl_filter_helper f p l = p ++ filter f l.
  Proof.
    revert p. induction l as [|a l IH]; intro p; cbn; [symmetry; apply app_nil_r|].
    destruct (f a); rewrite IH; [rewrite <- app_assoc|]; reflexivity.
  Qed.
End P.

Theorem C33_access : forall (T : Type) (l : list T) i,
  tl_get l i = nth_error l i /\ tl_first l = nth_error l 0 /\
  tl_last l = nth_error l (List.length l - 1) /\ tl_size l = List.length l /\
  (tl_isempty l = true <-> l = []).
Proof.
  intros T l i. split; [apply get_nth|]. split; [destruct l; reflexivity|]. split; [|split; [reflexivity|]].
  - induction l as [|a l IH]; [reflexivity|]. cbn [tl_last List.length]. destruct l as [|b l]; [reflexivity|].
    rewrite IH. cbn. rewrite Nat.sub_0_r. reflexivity.
  - unfold tl_isempty. rewrite Nat.eqb_eq. destruct l; cbn; split; congruence.
Qed.
Print Assumptions C33_access.

Theorem C33_indexof : forall (T : Type) (same : forall a b : T, {a = b} + {a <> b}) (l : list T) v,
  (In v l -> exists n, tl_indexof same l v = Z.of_nat n /\ nth_error l n = Some v /\
                       forall m, m < n -> nth_error l m <> Some v) /\
  (~ In v l -> tl_indexof same l v = (-1)%Z) /\
  (tl_exists same l v = true <-> In v l).
Proof.
  intros T same l v. split; [|split; [|apply exists_iff]].
  - intro H. destruct (indexof_helper_spec same l v 0) as [(n & Hn & Hm & E)|[Hni _]]; [|contradiction].
    exists n. auto.
  - intro H. destruct (indexof_helper_spec same l v 0) as [(n & Hn & _ & _)|[_ E]]; [|exact E].
    exfalso. apply H. eapply nth_error_In; eauto.
Qed.
Print Assumptions C33_indexof.

Theorem C33_push_pop : forall (T : Type) (l vs : list T) v,
  tl_popfront (tl_pushfront l (v :: vs)) = Some (tl_pushfront l vs) /\
  tl_popback (tl_pushback l (vs ++ [v])) = Some (tl_pushback l vs) /\
  tl_popfront (@nil T) = None /\ tl_popback (@nil T) = None /\
  tl_concat l vs = tl_pushback l vs /\ tl_concat vs l = tl_pushfront l vs /\
  (l <> [] -> tl_popback l = Some (removelast l) /\ tl_popfront l = Some (tl l)).
Proof.
  intros T l vs v. repeat split.
  - unfold tl_popback, tl_pushback. rewrite popback_helper_spec by (destruct l, vs; discriminate).
    rewrite app_assoc. cbn. f_equal. apply removelast_last.
  - unfold tl_popback. rewrite popback_helper_spec by assumption. reflexivity.
  - destruct l; [congruence|reflexivity].
Qed.
Print Assumptions C33_push_pop.

Theorem C33_remove_first_occurrence : forall (T : Type) (same : forall a b : T, {a = b} + {a <> b}) (l : list T) v,
  (~ In v l -> tl_remove same l v = l) /\
  (forall l1 l2, l = l1 ++ v :: l2 -> ~ In v l1 -> tl_remove same l v = l1 ++ l2).
Proof. intros T same l v. split; [apply remove_absent|]. intros l1 l2 ->. apply remove_first. Qed.
Print Assumptions C33_remove_first_occurrence.

Theorem C33_remove_all : forall (T : Type) (same : forall a b : T, {a = b} + {a <> b}) (l : list T) v,
  tl_removeall same l v = remove same v l.
Proof. intros. apply (removeall_helper_spec same []). Qed.
Print Assumptions C33_remove_all.

(** Keeps the last occurrence of each type. *)
Theorem C33_remove_duplicates : forall (T : Type) (same : forall a b : T, {a = b} + {a <> b}) (l : list T),
  tl_remove_duplicates same l = nodup same l /\
  NoDup (tl_remove_duplicates same l) /\ (forall v, In v (tl_remove_duplicates same l) <-> In v l).
Proof.
  intros T same l. unfold tl_remove_duplicates. rewrite dedup_helper_spec. cbn.
  split; [reflexivity|]. split; [apply NoDup_nodup|intro v; apply nodup_In].
Qed.
Print Assumptions C33_remove_duplicates.

Theorem C33_unordered_equal : forall (T : Type) (same : forall a b : T, {a = b} + {a <> b}) (l1 l2 : list T),
  tl_unorderedequal same l1 l2 = true <-> Permutation l1 l2.
Proof. exact @unordered_spec. Qed.
Print Assumptions C33_unordered_equal.

Theorem C33_map_filter_foldl : forall (T U I : Type) (l : list T) (g : T -> U) (p : T -> bool) (f : I -> T -> I) i k,
  nth_error (tl_map l g) k = option_map g (nth_error l k) /\
  tl_filter l p = filter p l /\ tl_foldl l f i = fold_left f l i.
Proof.
  intros T U I l g p f i k. split; [|split].
  - unfold tl_map. revert k. induction l as [|a l IH]; intros [|k]; cbn; auto.
  - apply (filter_helper_spec p []).
  - revert i. induction l as [|a l IH]; intro i; cbn; auto.
Qed.
Print Assumptions C33_map_filter_foldl.

(** foldr is the right fold only for result types that name themselves through a member [type] (as
    std::integral_constant does). *)
Theorem C33_foldr_self_naming : forall (T I : Type) (member : I -> option I) (l : list T) (f : T -> I -> I) i,
  (forall h r, member (f h r) = Some (f h r)) -> tl_foldr member l f i = Some (fold_right f i l).
Proof. intros T I member l f i H. induction l as [|a l IH]; cbn; [reflexivity|]. rewrite IH. apply H. Qed.
Print Assumptions C33_foldr_self_naming.

(** Otherwise it does not compile, for every non-empty list. *)
Theorem C33_foldr_refuted : forall (T I : Type) (member : I -> option I) (l : list T) (f : T -> I -> I) i,
  (forall r, member r = None) -> l <> [] -> tl_foldr member l f i = None.
Proof. intros T I member [|a l] f i H Hne; [congruence|]. cbn. destruct (tl_foldr member l f i); auto. Qed.
Print Assumptions C33_foldr_refuted.

Theorem C33_index_sequence : forall n, tl_make_index n [] = seq 0 n.
Proof.
  assert (H : forall n k, tl_make_index n (seq n k) = seq 0 (n + k)).
  { induction n as [|n IH]; intro k; cbn [tl_make_index]; [reflexivity|]. change (n :: seq (S n) k) with (seq n (S k)).
    rewrite IH. f_equal. lia. }
  intro n. specialize (H n 0). cbn in H. rewrite Nat.add_0_r in H. exact H.
Qed.
Print Assumptions C33_index_sequence.

(** The tuple of a list has the list's shape at every level: no type list is left inside. *)
Fixpoint no_list (t : mtype) : Prop :=
  match t with
  | MAtom _ => True
  | MList _ => False
  | MTuple l => fold_right (fun t P => no_list t /\ P) True l
  end.
Fixpoint tuple_free (t : mtype) : Prop :=
  match t with
  | MAtom _ => True
  | MTuple _ => False
  | MList l => fold_right (fun t P => tuple_free t /\ P) True l
  end.
Fixpoint mdepth (t : mtype) : nat :=
  match t with MAtom _ => 0 | MList l | MTuple l => S (fold_right (fun t n => Nat.max (mdepth t) n) 0 l) end.

Lemma runtime_ok : forall k t, mdepth t <= k -> tuple_free t -> no_list (tl_runtime t).
Proof.
  induction k as [|k IH]; intros [n|l|l] Hd Ht; cbn in *; auto; try lia; try contradiction.
  induction l as [|a l IHl]; cbn in *; [exact I|]. destruct Ht as [Ha Hl]. split.
  - apply IH; [lia|exact Ha].
  - apply IHl; [lia|exact Hl].
Qed.

Theorem C33_tuple : forall l i, tuple_free (MList l) ->
  no_list (tl_runtime (MList l)) /\
  (exists r, tl_runtime (MList l) = MTuple r /\ List.length r = List.length l /\
             nth_error r i = option_map tl_runtime (nth_error l i)).
Proof.
  intros l i H. split; [apply (runtime_ok _ _ (le_n _) H)|].
  exists (map tl_runtime l). split; [reflexivity|]. split; [apply map_length|].
  revert i. induction l as [|a l IH]; intros [|i]; cbn; auto. apply IH. destruct H as [_ H]. exact H.
Qed.
Print Assumptions C33_tuple.

Example C33_example :
  tl_indexof Nat.eq_dec [7; 8; 7] 8 = 1%Z /\ tl_remove Nat.eq_dec [7; 8; 7] 7 = [8; 7] /\
  tl_remove_duplicates Nat.eq_dec [1; 2; 1; 3] = [2; 1; 3] /\
  tl_unorderedequal Nat.eq_dec [1; 2; 1] [1; 1; 2] = true /\ tl_unorderedequal Nat.eq_dec [1; 2] [1; 1] = false /\
  tl_foldr (fun r => Some r) [1; 2; 3] Nat.sub 10 = Some (fold_right Nat.sub 10 [1; 2; 3]) /\
  tl_runtime (MList [MAtom 1; MList [MAtom 2]]) = MTuple [MAtom 1; MTuple [MAtom 2]] /\
  tuple_free (MList [MAtom 1; MList [MAtom 2]]).
Proof. repeat split. Qed.
