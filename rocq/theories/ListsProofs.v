(** Proofs about ListsModel.v. *)
From Coq Require Import List Bool Arith String Ascii Lia.
From Verif Require Import Util RegistryModel RegistryProofs ListsModel ListsSpec.
Import ListNotations.
Local Open Scope list_scope.

(** ** for_each *)

(** State of the visitor after visiting [p]. *)
Definition after {A S} (f : S -> A -> S * bool) (p : list A) (s : S) : S :=
  fold_left (fun s x => fst (f s x)) p s.

(** [p] is what a traversal must visit: every item before the last is accepted; the last one is refused
    unless the list is exhausted. *)
Definition visited {A S} (f : S -> A -> S * bool) (l p : list A) (s : S) : Prop :=
  exists r, l = p ++ r /\
    (forall p1 x p2, p = p1 ++ x :: p2 -> p2 <> [] -> snd (f (after f p1 s) x) = true) /\
    (r <> [] -> exists p1 x, p = p1 ++ [x] /\ snd (f (after f p1 s) x) = false).

Lemma for_each_visited {A S} (f : S -> A -> S * bool) l s :
  exists p, visited f l p s /\ for_each f l s = after f p s.
Proof.
  revert s. induction l as [|a l IH]; intro s.
  - exists []. split; [|reflexivity]. exists []. repeat split.
    + intros p1 x p2 H. destruct p1; discriminate.
    + congruence.
  - cbn. destruct (f s a) as [s' go] eqn:E. destruct go.
    + destruct (IH s') as (p & (r & -> & Hacc & Hlast) & Hres).
      exists (a :: p). split.
      * exists r. split; [reflexivity|]. split.
        -- intros [|b p1] x p2 H Hp2; cbn in H; injection H as H1 H2.
           ++ subst. cbn. rewrite E. reflexivity.
           ++ subst. cbn. rewrite E. cbn. eapply Hacc; [reflexivity|exact Hp2].
        -- intro Hr. destruct (Hlast Hr) as (p1 & x & -> & Hx).
           exists (a :: p1), x. split; [reflexivity|]. cbn. rewrite E. exact Hx.
      * cbn. rewrite E. exact Hres.
    + exists [a]. split.
      * exists l. split; [reflexivity|]. split.
        -- intros [|b p1] x p2 H Hp2; cbn in H; injection H as H1 H2; subst; [congruence|].
           destruct p1; discriminate.
        -- intros _. exists [], a. split; [reflexivity|]. cbn. rewrite E. reflexivity.
      * cbn. rewrite E. reflexivity.
Qed.

Lemma after_app {A S} (f : S -> A -> S * bool) p q s : after f (p ++ q) s = after f q (after f p s).
Proof. unfold after. apply fold_left_app. Qed.

Lemma visited_unique {A S} (f : S -> A -> S * bool) l p q s : visited f l p s -> visited f l q s -> p = q.
Proof.
  intros (r & -> & Ha & Hb) (r' & E & Ha' & Hb').
  assert (HH : forall (p q r r' : list A), p ++ r = q ++ r' ->
     (exists z, p = q ++ z) \/ (exists z, q = p ++ z)).
  { clear. induction p as [|a p IH]; intros [|b q] r r' H; cbn in *; eauto.
    - injection H as -> H. destruct (IH _ _ _ H) as [[z ->]|[z ->]]; eauto. }
  assert (HL : forall p q z (r r' : list A), p = q ++ z -> z <> [] -> p ++ r = q ++ r' ->
     (forall p1 x p2, p = p1 ++ x :: p2 -> p2 <> [] -> snd (f (after f p1 s) x) = true) ->
     (r' <> [] -> exists p1 x, q = p1 ++ [x] /\ snd (f (after f p1 s) x) = false) -> False).
  { clear. intros p q z r r' -> Hz E Hacc Href.
    rewrite <- app_assoc in E. apply app_inv_head in E.
    destruct Href as (p1 & x & -> & Hx); [destruct z; [congruence|]; rewrite <- E; discriminate|].
    rewrite (Hacc p1 x z) in Hx; [discriminate| |exact Hz]. rewrite <- app_assoc. reflexivity. }
  destruct (HH _ _ _ _ E) as [[[|a z] Hz]|[[|a z] Hz]].
  - rewrite app_nil_r in Hz. exact Hz.
  - exfalso. eapply (HL p q (a :: z) r r'); eauto. discriminate.
  - rewrite app_nil_r in Hz. congruence.
  - exfalso. eapply (HL q p (a :: z) r' r); eauto. discriminate.
Qed.

Lemma for_each_spec {A S} (f : S -> A -> S * bool) l s p :
  visited f l p s -> for_each f l s = after f p s.
Proof.
  intro H. destruct (for_each_visited f l s) as (q & Hq & E). rewrite (visited_unique f l p q s H Hq). exact E.
Qed.

(** ** MetaItemList *)

Lemma assoc_app {V} (l1 l2 : list (string * V)) n :
  assoc String.eqb n (l1 ++ l2) =
  match assoc String.eqb n l1 with Some v => Some v | None => assoc String.eqb n l2 end.
Proof.
  induction l1 as [|[k v] l1 IH]; cbn; [reflexivity|]. destruct (String.eqb n k); [reflexivity|exact IH].
Qed.

(** The map of names is the image of the items. *)
Fixpoint index_from {A} (nm : A -> string) (i : nat) (l : list A) : list (string * nat) :=
  match l with [] => [] | a :: l' => (nm a, i) :: index_from nm (S i) l' end.

Lemma index_from_app {A} (nm : A -> string) l l' i :
  index_from nm i (l ++ l') = index_from nm i l ++ index_from nm (i + List.length l) l'.
Proof.
  revert i. induction l as [|a l IH]; intro i; cbn.
  - rewrite Nat.add_0_r. reflexivity.
  - rewrite IH. f_equal. f_equal. f_equal. lia.
Qed.

Lemma assoc_index_some {A} (nm : A -> string) l i n j : assoc String.eqb n (index_from nm i l) = Some j ->
  i <= j /\ exists a, nth_error l (j - i) = Some a /\ nm a = n.
Proof.
  revert i. induction l as [|a l IH]; intros i H; cbn in H; [discriminate|].
  destruct (String.eqb n (nm a)) eqn:E.
  - injection H as <-. split; [lia|]. exists a. rewrite Nat.sub_diag. apply String.eqb_eq in E. auto.
  - destruct (IH _ H) as (Hle & b & Hb & Hn). split; [lia|]. exists b.
    replace (j - i) with (S (j - S i)) by lia. auto.
Qed.

Lemma assoc_index_none {A} (nm : A -> string) l i n :
  assoc String.eqb n (index_from nm i l) = None <-> ~ In n (map nm l).
Proof.
  revert i. induction l as [|a l IH]; intro i; cbn; [tauto|].
  destruct (String.eqb n (nm a)) eqn:E.
  - apply String.eqb_eq in E. split; [discriminate|]. intro H. exfalso. apply H. left. congruence.
  - apply String.eqb_neq in E. rewrite IH. intuition congruence.
Qed.

Lemma assoc_index_hit {A} (nm : A -> string) l i j a :
  NoDup (map nm l) -> nth_error l j = Some a -> assoc String.eqb (nm a) (index_from nm i l) = Some (i + j).
Proof.
  revert i j. induction l as [|b l IH]; intros i [|j] Hnd H; cbn in *; try discriminate.
  - injection H as ->. rewrite String.eqb_refl. f_equal. lia.
  - inversion Hnd as [|x y Hni Hnd']; subst.
    destruct (String.eqb (nm a) (nm b)) eqn:E.
    + apply String.eqb_eq in E. exfalso. apply Hni. rewrite <- E. apply in_map. eapply nth_error_In; eauto.
    + rewrite (IH (S i) j Hnd' H). f_equal. lia.
Qed.

Lemma ml_add_char nm l v :
  ml_names l = index_from nm 0 (ml_items l) ->
  ml_add nm l v =
  match v with
  | None => (l, false)
  | Some a => if in_dec string_dec (nm a) (map nm (ml_items l)) then (l, false)
              else ({| ml_items := ml_items l ++ [a];
                       ml_names := index_from nm 0 (ml_items l ++ [a]) |}, true)
  end.
Proof.
  intro HN. destruct v as [a|]; [|reflexivity]. unfold ml_add. rewrite HN.
  destruct (in_dec string_dec (nm a) (map nm (ml_items l))) as [Hin|Hni].
  - destruct (assoc String.eqb (nm a) (index_from nm 0 (ml_items l))) as [j|] eqn:E.
    + rewrite andb_false_r. reflexivity.
    + apply assoc_index_none in E. contradiction.
  - assert (E : assoc String.eqb (nm a) (index_from nm 0 (ml_items l)) = None) by (apply assoc_index_none; exact Hni).
    rewrite E. destruct (existsb (Nat.eqb a) (ml_items l)) eqn:EX.
    + apply existsb_exists in EX as (b & Hb & Hab). apply Nat.eqb_eq in Hab. subst.
      exfalso. apply Hni. apply in_map. exact Hb.
    + cbn. rewrite index_from_app. reflexivity.
Qed.

Lemma firsts_seen {A} (nm : A -> string) s s' h :
  (forall x, In x s <-> In x s') -> firsts nm s h = firsts nm s' h.
Proof.
  revert s s'. induction h as [|a h IH]; intros s s' H; cbn; [reflexivity|].
  destruct (in_dec string_dec (nm a) s) as [Hi|Hi], (in_dec string_dec (nm a) s') as [Hi'|Hi'];
    try (exfalso; rewrite ?H in *; rewrite <- ?H in *; tauto).
  - apply IH. exact H.
  - f_equal. apply IH. intro x. cbn. rewrite H. tauto.
Qed.

Lemma ml_run_char nm l h :
  ml_names l = index_from nm 0 (ml_items l) -> NoDup (map nm (ml_items l)) ->
  ml_items (ml_run nm l h) = ml_items l ++ firsts nm (map nm (ml_items l)) (somes h) /\
  ml_names (ml_run nm l h) = index_from nm 0 (ml_items (ml_run nm l h)) /\
  NoDup (map nm (ml_items (ml_run nm l h))).
Proof.
  revert l. induction h as [|v h IH]; intros l HN HD.
  - cbn. rewrite app_nil_r. auto.
  - change (ml_run nm l (v :: h)) with (ml_run nm (fst (ml_add nm l v)) h).
    rewrite (ml_add_char nm l v HN). destruct v as [a|]; cbn [fst somes firsts]; [|apply IH; auto].
    destruct (in_dec string_dec (nm a) (map nm (ml_items l))) as [Hin|Hni]; cbn [fst]; [apply IH; auto|].
    set (l1 := {| ml_items := ml_items l ++ [a]; ml_names := _ |}).
    destruct (IH l1) as (H1 & H2 & H3).
    + reflexivity.
    + cbn. rewrite map_app. cbn. apply NoDup_snoc; assumption.
    + split; [|split; assumption]. rewrite H1. cbn [ml_items l1].
      rewrite <- app_assoc. cbn. f_equal. f_equal. apply firsts_seen.
      intro x. rewrite map_app, in_app_iff. cbn. tauto.
Qed.

Definition ml_ok (nm : addr -> string) (l : milist) : Prop :=
  ml_names l = index_from nm 0 (ml_items l) /\ NoDup (map nm (ml_items l)).

Lemma ml0_ok nm : ml_ok nm ml0.
Proof. split; [reflexivity|constructor]. Qed.

Lemma ml_run_ok nm l h : ml_ok nm l -> ml_ok nm (ml_run nm l h).
Proof. intros [H1 H2]. destruct (ml_run_char nm l h H1 H2) as (_ & H3 & H4). split; assumption. Qed.

Lemma ml_items_firsts nm h : ml_items (ml_run nm ml0 h) = firsts nm [] (somes h).
Proof. apply (ml_run_char nm ml0 h (eq_refl _)). constructor. Qed.

Lemma ml_get_nth l i : ml_get l i = nth_error (ml_items l) i.
Proof.
  unfold ml_get. destruct (i <? List.length (ml_items l)) eqn:E; [reflexivity|].
  apply Nat.ltb_ge in E. symmetry. apply nth_error_None. exact E.
Qed.

Lemma ml_find_iff nm l n a : ml_ok nm l -> n <> ""%string ->
  (ml_find l n = Some a <-> In a (ml_items l) /\ nm a = n).
Proof.
  intros [HN HD] Hn. unfold ml_find. apply String.eqb_neq in Hn. rewrite Hn, HN. split.
  - destruct (assoc String.eqb n _) as [j|] eqn:E; [|discriminate].
    apply assoc_index_some in E as (_ & b & Hb & Hnb). rewrite Nat.sub_0_r in Hb.
    destruct (j <? _); [|discriminate]. intro H. rewrite H in Hb. injection Hb as ->.
    split; [eapply nth_error_In; eauto|exact Hnb].
  - intros [Hin <-]. apply In_nth_error in Hin as [j Hj].
    rewrite (assoc_index_hit nm _ 0 j a HD Hj). rewrite Nat.add_0_l.
    assert (j < List.length (ml_items l)) by (apply nth_error_Some; congruence).
    apply Nat.ltb_lt in H. rewrite H. exact Hj.
Qed.

Lemma ml_find_index nm l n a : ml_ok nm l -> n <> ""%string ->
  (ml_find l n = Some a <-> exists i, ml_get l i = Some a /\ nm a = n).
Proof.
  intros H Hn. rewrite (ml_find_iff nm l n a H Hn). split.
  - intros [Hin E]. apply In_nth_error in Hin as [i Hi]. exists i. rewrite ml_get_nth. auto.
  - intros (i & Hi & E). rewrite ml_get_nth in Hi. split; [eapply nth_error_In; eauto|exact E].
Qed.

Lemma ml_stable nm l h i a : ml_ok nm l -> ml_get l i = Some a -> ml_get (ml_run nm l h) i = Some a.
Proof.
  intros [H1 H2] H. rewrite ml_get_nth in *. destruct (ml_run_char nm l h H1 H2) as (E & _ & _).
  rewrite E. apply nth_prefix. exact H.
Qed.

Lemma ml_refused nm l v : snd (ml_add nm l v) = false -> fst (ml_add nm l v) = l.
Proof. destruct v as [a|]; cbn; [|reflexivity]. destruct (_ && _); cbn; [discriminate|reflexivity]. Qed.

Lemma ml_accepted nm l v : ml_ok nm l ->
  (snd (ml_add nm l v) = true <->
   exists a, v = Some a /\ (forall i b, ml_get l i = Some b -> nm b <> nm a)).
Proof.
  intros [HN HD]. rewrite (ml_add_char nm l v HN). destruct v as [a|]; cbn.
  - destruct (in_dec string_dec (nm a) (map nm (ml_items l))) as [Hi|Hi]; cbn.
    + split; [discriminate|]. intros (a' & [= <-] & H). apply in_map_iff in Hi as (b & Hb & Hin).
      apply In_nth_error in Hin as [i Hi]. exfalso. apply (H i b); [rewrite ml_get_nth; exact Hi|exact Hb].
    + split; [|reflexivity]. intros _. exists a. split; [reflexivity|]. intros i b Hb E. apply Hi.
      rewrite ml_get_nth in Hb. rewrite <- E. apply in_map. eapply nth_error_In; eauto.
  - split; [discriminate|]. intros (a & E & _). discriminate.
Qed.

Lemma ml_accepted_last nm l v : ml_ok nm l -> snd (ml_add nm l v) = true ->
  ml_get (fst (ml_add nm l v)) (ml_size l) = v /\ ml_size (fst (ml_add nm l v)) = S (ml_size l).
Proof.
  intros [HN HD]. rewrite (ml_add_char nm l v HN). destruct v as [a|]; cbn; [|discriminate].
  destruct (in_dec _ _ _); cbn; [discriminate|]. intros _. rewrite ml_get_nth. cbn. split.
  - apply nth_last.
  - unfold ml_size. cbn. rewrite app_length. cbn. lia.
Qed.

Lemma ml_names_unique nm l i j a b : ml_ok nm l ->
  ml_get l i = Some a -> ml_get l j = Some b -> nm a = nm b -> i = j.
Proof.
  intros [HN HD] Ha Hb E. rewrite ml_get_nth in *.
  assert (Hi : nth_error (map nm (ml_items l)) i = Some (nm a)) by (apply map_nth_error; exact Ha).
  assert (Hj : nth_error (map nm (ml_items l)) j = Some (nm a)) by (rewrite E; apply map_nth_error; exact Hb).
  rewrite NoDup_nth_error in HD. apply HD; [|congruence]. apply nth_error_Some. congruence.
Qed.

Lemma ml_total nm l i : ml_ok nm l -> (i < ml_size l <-> exists a, ml_get l i = Some a).
Proof.
  intros _. rewrite ml_get_nth. unfold ml_size. split.
  - intro H. apply nth_error_Some in H. destruct (nth_error (ml_items l) i); [eauto|congruence].
  - intros [a H]. apply nth_error_Some. congruence.
Qed.

(** ** NamedVariantList *)

Section Named.
  Context {V : Type} (ev : V).

  Lemma set_value_names i v (l : list (string * V)) : map fst (set_value i v l) = map fst l.
  Proof. revert i. induction l as [|[n w] l IH]; intros [|i]; cbn; congruence. Qed.

  Lemma set_value_length i v (l : list (string * V)) : List.length (set_value i v l) = List.length l.
  Proof. revert i. induction l as [|[n w] l IH]; intros [|i]; cbn; congruence. Qed.

  Lemma set_value_nth i v (l : list (string * V)) j :
    nth_error (set_value i v l) j =
    match nth_error l j with
    | Some (n, w) => if j =? i then Some (n, v) else Some (n, w)
    | None => None
    end.
  Proof.
    revert i j. induction l as [|[n w] l IH]; intros [|i] [|j]; cbn; try reflexivity.
    - destruct (nth_error l j) as [[]|]; reflexivity.
    - rewrite IH. destruct (nth_error l j) as [[]|]; reflexivity.
  Qed.

  Definition nv_ok (l : nvlist V) : Prop :=
    nv_names l = index_from fst 0 (nv_items l) /\ NoDup (map fst (nv_items l)) /\
    ~ In ""%string (map fst (nv_items l)).

  Lemma index_from_fst (l1 l2 : list (string * V)) i :
    map fst l1 = map fst l2 -> index_from fst i l1 = index_from fst i l2.
  Proof.
    revert i l2. induction l1 as [|[n v] l1 IH]; intros i [|[m w] l2] H; cbn in *; try discriminate; auto.
    injection H as -> H. f_equal. apply IH. exact H.
  Qed.

  (** What one insertion does. *)
  Lemma nv_set_spec l n v : nv_ok l ->
    exists l', nv_set l n v = Some l' /\ nv_ok l' /\
    ((n = ""%string /\ l' = l) \/
     (n <> ""%string /\ ~ In n (map fst (nv_items l)) /\ nv_items l' = nv_items l ++ [(n, v)]) \/
     (exists i w, n <> ""%string /\ nth_error (nv_items l) i = Some (n, w) /\
        nv_items l' = set_value i v (nv_items l))).
  Proof.
    intros (HN & HD & HE). unfold nv_set.
    destruct (String.eqb n "") eqn:E0.
    { apply String.eqb_eq in E0. exists l. split; [reflexivity|]. split; [repeat split; assumption|]. left. auto. }
    apply String.eqb_neq in E0. rewrite HN.
    destruct (assoc String.eqb n (index_from fst 0 (nv_items l))) as [i|] eqn:E.
    - apply assoc_index_some in E as (_ & [m w] & Hi & Hm). cbn in Hm. subst m. rewrite Nat.sub_0_r in Hi.
      assert (Hlt : i < List.length (nv_items l)) by (apply nth_error_Some; congruence).
      apply Nat.ltb_lt in Hlt. rewrite Hlt. eexists. split; [reflexivity|]. split.
      + repeat split; cbn.
        * apply index_from_fst. symmetry. apply set_value_names.
        * rewrite set_value_names. exact HD.
        * rewrite set_value_names. exact HE.
      + right. right. exists i, w. auto.
    - apply assoc_index_none in E. eexists. split; [reflexivity|]. split.
      + repeat split; cbn.
        * rewrite index_from_app. cbn. rewrite app_length. cbn. f_equal. f_equal. f_equal. lia.
        * rewrite map_app. apply NoDup_snoc; assumption.
        * rewrite map_app, in_app_iff. cbn. intuition congruence.
      + right. left. auto.
  Qed.

  Definition named (h : list (string * V)) : list (string * V) :=
    filter (fun p => negb (String.eqb (fst p) "")) h.

  (** The items of a list are described by their names (in order) and the value of each name. *)
  Definition val (l : nvlist V) (n : string) : option V := assoc String.eqb n (nv_items l).

  Lemma assoc_fst_none (l : list (string * V)) n : assoc String.eqb n l = None <-> ~ In n (map fst l).
  Proof.
    induction l as [|[k v] l IH]; cbn; [tauto|]. destruct (String.eqb n k) eqn:E.
    - apply String.eqb_eq in E. split; [discriminate|]. intro H. exfalso. apply H. left. congruence.
    - apply String.eqb_neq in E. rewrite IH. intuition congruence.
  Qed.

  Lemma assoc_nth (l : list (string * V)) n v i : NoDup (map fst l) ->
    nth_error l i = Some (n, v) -> assoc String.eqb n l = Some v.
  Proof.
    revert i. induction l as [|[k w] l IH]; intros [|i] Hnd H; cbn in *; try discriminate.
    - injection H as -> ->. rewrite String.eqb_refl. reflexivity.
    - inversion Hnd; subst. destruct (String.eqb n k) eqn:E; [|eauto].
      apply String.eqb_eq in E. subst. exfalso. apply H2.
      apply nth_error_In in H. apply (in_map fst) in H. exact H.
  Qed.

  Lemma assoc_in (l : list (string * V)) n v : assoc String.eqb n l = Some v ->
    exists i, nth_error l i = Some (n, v).
  Proof.
    induction l as [|[k w] l IH]; cbn; [discriminate|]. destruct (String.eqb n k) eqn:E.
    - intros [= ->]. apply String.eqb_eq in E. subst. exists 0. reflexivity.
    - intro H. destruct (IH H) as [i Hi]. exists (S i). exact Hi.
  Qed.

  Lemma val_after l n v l' m : nv_ok l -> nv_set l n v = Some l' ->
    val l' m = if String.eqb m "" then None else if String.eqb m n then Some v else val l m.
  Proof.
    intros Hok Hs. destruct (nv_set_spec l n v Hok) as (l2 & E2 & Hok' & Hc). rewrite E2 in Hs.
    injection Hs as ->. destruct Hok as (HN & HD & HE), Hok' as (HN' & HD' & HE').
    destruct (String.eqb m "") eqn:Em.
    { apply String.eqb_eq in Em. subst. apply assoc_fst_none. exact HE'. }
    unfold val. destruct Hc as [[-> ->]|[(Hn & Hni & Ei)|(i & w & Hn & Hi & Ei)]].
    - rewrite Em. reflexivity.
    - rewrite Ei, assoc_app. cbn. destruct (String.eqb m n) eqn:E.
      + apply String.eqb_eq in E. subst. apply assoc_fst_none in Hni. rewrite Hni. reflexivity.
      + destruct (assoc String.eqb m (nv_items l)); reflexivity.
    - destruct (String.eqb m n) eqn:E.
      + apply String.eqb_eq in E. subst m. apply (assoc_nth _ n v i HD'). rewrite Ei, set_value_nth, Hi.
        rewrite Nat.eqb_refl. reflexivity.
      + apply String.eqb_neq in E. rewrite Ei.
        destruct (assoc String.eqb m (nv_items l)) as [u|] eqn:Eu.
        * apply assoc_in in Eu as [j Hj]. rewrite Ei in HD'. apply (assoc_nth _ m u j HD').
          rewrite set_value_nth, Hj. destruct (j =? i) eqn:Eji; [|reflexivity].
          apply Nat.eqb_eq in Eji. subst j. congruence.
        * apply assoc_fst_none. rewrite set_value_names. apply assoc_fst_none. exact Eu.
  Qed.

  Lemma nv_run_spec h : forall l, nv_ok l ->
    exists l', nv_run l h = Some l' /\ nv_ok l' /\
    map fst (nv_items l') =
      map fst (nv_items l) ++ firsts (fun n : string => n) (""%string :: map fst (nv_items l)) (map fst h) /\
    (forall n, val l' n = if String.eqb n "" then None else
                          match last_set n h with Some v => Some v | None => val l n end).
  Proof.
    induction h as [|[n v] h IH]; intros l Hok.
    - exists l. cbn. split; [reflexivity|]. split; [exact Hok|]. split.
      + rewrite app_nil_r. reflexivity.
      + intro n. destruct (String.eqb n "") eqn:E; [|reflexivity].
        apply String.eqb_eq in E. subst. destruct Hok as (_ & _ & HE). apply assoc_fst_none. exact HE.
    - destruct (nv_set_spec l n v Hok) as (l1 & E1 & Hok1 & Hc).
      destruct (IH l1 Hok1) as (l' & Er & Hok' & Hn & Hv).
      exists l'. cbn [nv_run]. rewrite E1. split; [exact Er|]. split; [exact Hok'|]. split.
      + rewrite Hn. clear Hn Hv Er IH. cbn [map fst firsts].
        destruct Hc as [[-> ->]|[(Hne & Hni & Ei)|(i & w & Hne & Hi & Ei)]].
        * destruct (in_dec string_dec ""%string (""%string :: map fst (nv_items l))) as [_|H]; [reflexivity|].
          exfalso. apply H. left. reflexivity.
        * destruct (in_dec string_dec n (""%string :: map fst (nv_items l))) as [[H|H]|H].
          -- congruence.
          -- contradiction.
          -- rewrite Ei, map_app, <- app_assoc. cbn [app map fst]. f_equal. f_equal. apply firsts_seen.
             intro x. cbn. rewrite in_app_iff. cbn. tauto.
        * destruct (in_dec string_dec n (""%string :: map fst (nv_items l))) as [_|H].
          -- rewrite Ei, set_value_names. reflexivity.
          -- exfalso. apply H. right. apply nth_error_In in Hi. apply (in_map fst) in Hi. exact Hi.
      + intro m. rewrite Hv. destruct (String.eqb m "") eqn:Em; [reflexivity|]. cbn [last_set].
        destruct (last_set m h) as [u|]; [reflexivity|].
        rewrite (val_after l n v l1 m Hok E1), Em. destruct (string_dec m n) as [->|Hmn].
        * rewrite String.eqb_refl. reflexivity.
        * apply String.eqb_neq in Hmn. rewrite Hmn. reflexivity.
  Qed.

  Lemma nv0_ok : nv_ok nv0.
  Proof. repeat split; cbn; [constructor|tauto]. Qed.

  Lemma nv_find_val l n : nv_ok l -> nv_find ev l n = match val l n with Some v => v | None => ev end.
  Proof.
    intros (HN & HD & HE). unfold nv_find, val. destruct (String.eqb n "") eqn:E.
    - apply String.eqb_eq in E. subst. apply assoc_fst_none in HE. rewrite HE. reflexivity.
    - rewrite HN. destruct (assoc String.eqb n (index_from fst 0 (nv_items l))) as [i|] eqn:Ei.
      + apply assoc_index_some in Ei as (_ & [m w] & Hi & Hm). cbn in Hm. subst m. rewrite Nat.sub_0_r in Hi.
        rewrite Hi. rewrite (assoc_nth _ n w i HD Hi). reflexivity.
      + apply assoc_index_none in Ei. apply assoc_fst_none in Ei. rewrite Ei. reflexivity.
  Qed.

  Lemma nv_history (h : list (string * V)) : exists l, nv_run nv0 h = Some l /\
    (forall i, nv_name l i = nth i (firsts (fun n : string => n) [""%string] (map fst h)) ""%string) /\
    nv_size l = List.length (firsts (fun n : string => n) [""%string] (map fst h)) /\
    (forall n, nv_find ev l n = if string_dec n "" then ev else
                                match last_set n h with Some v => v | None => ev end) /\
    (forall i, nv_get ev l i = nv_find ev l (nv_name l i)).
  Proof.
    destruct (nv_run_spec h nv0 nv0_ok) as (l & Hr & Hok & Hn & Hv).
    cbn in Hn. exists l. split; [exact Hr|]. split; [|split; [|split]].
    - intro i. rewrite <- Hn. unfold nv_name.
      destruct (nth_error (nv_items l) i) as [p|] eqn:E.
      + symmetry. apply nth_error_nth. apply map_nth_error. exact E.
      + symmetry. apply nth_overflow. rewrite map_length. apply nth_error_None. exact E.
    - unfold nv_size. rewrite <- Hn, map_length. reflexivity.
    - intro n. rewrite (nv_find_val l n Hok), Hv. destruct (string_dec n "") as [->|Hne]; [reflexivity|].
      apply String.eqb_neq in Hne. rewrite Hne. destruct (last_set n h); reflexivity.
    - intro i. rewrite (nv_find_val _ _ Hok). unfold nv_get, nv_name.
      destruct (nth_error (nv_items l) i) as [[m w]|] eqn:E; cbn.
      + destruct Hok as (_ & HD & _). unfold val. rewrite (assoc_nth _ m w i HD E). reflexivity.
      + destruct Hok as (_ & _ & HE). unfold val. apply assoc_fst_none in HE. rewrite HE. reflexivity.
  Qed.

  (** Positions never change. *)
  Lemma nv_stable (h h' : list (string * V)) l l' i : nv_run nv0 h = Some l -> nv_run l h' = Some l' -> i < nv_size l ->
    nv_name l' i = nv_name l i.
  Proof.
    intros H H' Hi. destruct (nv_run_spec h nv0 nv0_ok) as (l1 & E1 & Hok & _ & _).
    rewrite E1 in H. injection H as ->.
    destruct (nv_run_spec h' l Hok) as (l2 & E2 & _ & Hn & _). rewrite E2 in H'. injection H' as ->.
    unfold nv_name, nv_size in *. apply nth_error_Some in Hi.
    destruct (nth_error (nv_items l) i) as [p|] eqn:E; [|congruence].
    assert (H1 : nth_error (map fst (nv_items l)) i = Some (fst p)) by (apply map_nth_error; exact E).
    apply (nth_prefix _ (firsts (fun n : string => n) (""%string :: map fst (nv_items l)) (map fst h'))) in H1.
    rewrite <- Hn in H1. destruct (nth_error (nv_items l') i) as [p'|] eqn:E'.
    - rewrite (map_nth_error fst _ _ E') in H1. congruence.
    - exfalso. apply nth_error_None in E'. assert (i < List.length (map fst (nv_items l'))).
      { apply nth_error_Some. congruence. } rewrite map_length in H. lia.
  Qed.
End Named.

(** ** Qualified names *)

(** The path of names from below the global namespace to an item. *)
Inductive has_path (l : list qitem) : nat -> list string -> Prop :=
| PRoot i x : nth_error l i = Some x -> qi_owner x = None -> has_path l i []
| PStep i x o p : nth_error l i = Some x -> qi_owner x = Some o -> has_path l o p ->
    has_path l i (p ++ [qi_name x]).

Lemma has_path_fun l i p q : has_path l i p -> has_path l i q -> p = q.
Proof.
  intro H. revert q. induction H as [i x Hi Ho|i x o p Hi Ho Hp IH]; intros q Hq;
    inversion Hq as [j y Hj Hoy E1 E2|j y o' p' Hj Hoy Hp' E1 E2]; subst.
  - reflexivity.
  - exfalso. congruence.
  - exfalso. congruence.
  - assert (y = x) by congruence. subst y. assert (o' = o) by congruence. subst o'. f_equal. auto.
Qed.

(** Two stores that agree but for caches have the same paths. *)
Definition same_shape (l l' : list qitem) : Prop :=
  map (fun x => (qi_name x, qi_owner x)) l = map (fun x => (qi_name x, qi_owner x)) l'.

Lemma shape_nth l l' i x : same_shape l l' -> nth_error l i = Some x ->
  exists x', nth_error l' i = Some x' /\ qi_name x' = qi_name x /\ qi_owner x' = qi_owner x.
Proof.
  intros H Hi. apply (map_nth_error (fun x => (qi_name x, qi_owner x))) in Hi. rewrite H in Hi.
  destruct (nth_error l' i) as [x'|] eqn:E.
  - rewrite (map_nth_error _ _ _ E) in Hi. injection Hi as H1 H2. eauto.
  - apply nth_error_None in E. assert (nth_error (map (fun x => (qi_name x, qi_owner x)) l') i = None).
    { apply nth_error_None. rewrite map_length. exact E. } congruence.
Qed.

Lemma shape_path l l' i p : same_shape l l' -> has_path l i p -> has_path l' i p.
Proof.
  intros H Hp. induction Hp as [i x Hi Ho|i x o p Hi Ho Hp IH];
    destruct (shape_nth _ _ _ _ H Hi) as (x' & Hi' & Hn & Ho').
  - eapply PRoot; [exact Hi'|congruence].
  - rewrite <- Hn. eapply PStep; [exact Hi'|rewrite Ho'; exact Ho|exact IH].
Qed.

Lemma set_cache_shape i q l : same_shape l (set_cache i q l).
Proof. unfold same_shape. revert i. induction l as [|x l IH]; intros [|i]; cbn; f_equal; auto. Qed.

Lemma set_cache_nth i q l j x : nth_error (set_cache i q l) j = Some x ->
  (j = i /\ qi_cache x = q /\ exists y, nth_error l j = Some y) \/ (nth_error l j = Some x).
Proof.
  revert i j. induction l as [|y l IH]; intros [|i] [|j] H; cbn in *; try discriminate; auto.
  - injection H as <-. left. cbn. eauto.
  - destruct (IH _ _ H) as [(-> & Hq & Hy)|Hr]; auto.
Qed.

Definition cache_ok (l : list qitem) : Prop :=
  (forall i x, nth_error l i = Some x -> forall o, qi_owner x = Some o -> o < i) /\
  (forall i x, nth_error l i = Some x -> qi_cache x = ""%string \/
     exists p, has_path l i p /\ qi_cache x = path_text p).

Lemma path_exists l : cache_ok l -> forall i, i < List.length l -> exists p, has_path l i p.
Proof.
  intros [Ho _] i. induction i as [i IH] using lt_wf_ind. intro Hi.
  apply nth_error_Some in Hi. destruct (nth_error l i) as [x|] eqn:E; [|congruence].
  destruct (qi_owner x) as [o|] eqn:Eo.
  - pose proof (Ho i x E o Eo) as Hlt. destruct (IH o Hlt) as [p Hp].
    { assert (i < List.length l) by (apply nth_error_Some; congruence). lia. }
    exists (p ++ [qi_name x]). eapply PStep; eauto.
  - exists []. eapply PRoot; eauto.
Qed.

Lemma sapp_assoc (a b c : string) : ((a ++ b) ++ c = a ++ (b ++ c))%string.
Proof. induction a as [|x a IH]; cbn; [reflexivity|]. rewrite IH. reflexivity. Qed.
Lemma sapp_nil (a : string) : (a ++ "" = a)%string.
Proof. induction a as [|x a IH]; cbn; [reflexivity|]. rewrite IH. reflexivity. Qed.

Lemma concat_cons_e s l : String.concat "" (s :: l) = (s ++ String.concat "" l)%string.
Proof. destruct l as [|t l]; [cbn; symmetry; apply sapp_nil|reflexivity]. Qed.

Lemma concat_app_e l1 l2 : String.concat "" (l1 ++ l2) = (String.concat "" l1 ++ String.concat "" l2)%string.
Proof.
  induction l1 as [|s l1 IH]; [reflexivity|]. cbn [app]. rewrite !concat_cons_e, IH. symmetry. apply sapp_assoc.
Qed.

Lemma path_text_snoc p n : path_text (p ++ [n]) = (path_text p ++ ("::" ++ n))%string.
Proof. unfold path_text. rewrite map_app, concat_app_e. reflexivity. Qed.

Lemma qualifiedName_ok : forall fuel l i p, cache_ok l -> has_path l i p -> i < fuel ->
  exists l', qualifiedName fuel l i = Some (l', path_text p) /\ cache_ok l' /\ same_shape l l'.
Proof.
  induction fuel as [|fuel IH]; intros l i p Hok Hp Hf; [lia|].
  destruct Hok as [Ho Hc].
  assert (Hx : exists x, nth_error l i = Some x) by (inversion Hp; subst; eauto).
  destruct Hx as [x Hx]. cbn [qualifiedName]. rewrite Hx.
  destruct (String.eqb (qi_cache x) "") eqn:Ec; cbn [negb].
  - destruct (qi_owner x) as [o|] eqn:Eo.
    + inversion Hp as [j y Hy Hyo|j y o' p' Hy Hyo Hp']; subst; [congruence|].
      assert (y = x) by congruence; subst y. assert (o' = o) by congruence; subst o'.
      pose proof (Ho i x Hx o Eo) as Hlt.
      destruct (IH l o p' (conj Ho Hc) Hp') as (l1 & E1 & Hok1 & Hs1); [lia|].
      rewrite E1. exists (set_cache i (path_text p' ++ "::" ++ qi_name x)%string l1).
      assert (Hss : same_shape l (set_cache i (path_text p' ++ "::" ++ qi_name x)%string l1)).
      { unfold same_shape. rewrite Hs1. apply set_cache_shape. }
      split; [rewrite path_text_snoc; reflexivity|]. split; [|exact Hss].
      destruct Hok1 as [Ho1 Hc1]. split.
      * intros j y' Hy' o' Ey. destruct (shape_nth _ _ _ _ (eq_sym Hss) Hy') as (z & Hz & _ & Ezo).
        eapply Ho; [exact Hz|congruence].
      * intros j y Hyj. apply set_cache_nth in Hyj as [(-> & Eq & _)|Hyj].
        -- right. exists (p' ++ [qi_name x]). split; [eapply shape_path; eassumption|].
           rewrite Eq, path_text_snoc. reflexivity.
        -- destruct (Hc1 j y Hyj) as [H|(q & Hq & Eq)]; [left; exact H|right].
           exists q. split; [|exact Eq]. eapply shape_path; [apply set_cache_shape|exact Hq].
    + inversion Hp as [j y Hy Hyo|j y o' p' Hy Hyo Hp']; subst; [|congruence].
      exists (set_cache i "" l). split; [reflexivity|]. split; [|apply set_cache_shape]. split.
      * intros j z Hz o' Ez. destruct (shape_nth _ _ _ _ (eq_sym (set_cache_shape i "" l)) Hz) as (w & Hw & _ & Ew).
        eapply Ho; [exact Hw|congruence].
      * intros j z Hz. apply set_cache_nth in Hz as [(-> & Eq & _)|Hz]; [left; exact Eq|].
        destruct (Hc j z Hz) as [H|(q & Hq & Eq)]; [left; exact H|right]. exists q. split; [|exact Eq].
        eapply shape_path; [apply set_cache_shape|exact Hq].
  - apply String.eqb_neq in Ec. destruct (Hc i x Hx) as [H|(q & Hq & Eq)]; [contradiction|].
    rewrite (has_path_fun _ _ _ _ Hp Hq). exists l. rewrite Eq. split; [reflexivity|].
    split; [split; assumption|reflexivity].
Qed.

Lemma has_path_app l l' i p : has_path l i p -> has_path (l ++ l') i p.
Proof.
  intro H. induction H as [i x Hi Ho|i x o p Hi Ho Hp IH].
  - eapply PRoot; [apply nth_prefix; exact Hi|exact Ho].
  - eapply PStep; [apply nth_prefix; exact Hi|exact Ho|exact IH].
Qed.

Lemma qstep_ok l o : cache_ok l -> cache_ok (qstep l o) /\
  (forall i p, has_path l i p -> has_path (qstep l o) i p).
Proof.
  intro Hok. destruct o as [n ow|i]; cbn [qstep].
  - destruct (ow <? List.length l) eqn:E; [|auto]. apply Nat.ltb_lt in E. split.
    + destruct Hok as [Ho Hc]. split.
      * intros i x Hi o Eo. apply nth_snoc in Hi as [Hi|[-> ->]]; [eauto|]. cbn in Eo. injection Eo as <-. exact E.
      * intros i x Hi. apply nth_snoc in Hi as [Hi|[-> ->]]; [|left; reflexivity].
        destruct (Hc i x Hi) as [H|(q & Hq & Eq)]; [left; exact H|right]. exists q. split; [|exact Eq].
        apply has_path_app. exact Hq.
    + intros i p H. apply has_path_app. exact H.
  - destruct (Nat.lt_ge_cases i (List.length l)) as [Hi|Hi].
    + destruct (path_exists l Hok i Hi) as [p Hp].
      destruct (qualifiedName_ok (S (List.length l)) l i p Hok Hp) as (l' & E & Hok' & Hs); [lia|].
      rewrite E. split; [exact Hok'|]. intros j q Hq. eapply shape_path; eassumption.
    + cbn [qualifiedName]. apply nth_error_None in Hi. rewrite Hi. auto.
Qed.

Lemma qrun_ok h : forall l, cache_ok l -> cache_ok (qrun l h) /\
  (forall i p, has_path l i p -> has_path (qrun l h) i p).
Proof.
  induction h as [|o h IH]; intros l Hok; [auto|].
  change (qrun l (o :: h)) with (qrun (qstep l o) h).
  destruct (qstep_ok l o Hok) as [H1 H2]. destruct (IH _ H1) as [H3 H4]. split; [exact H3|]. auto.
Qed.

Lemma q_global_ok : cache_ok q_global.
Proof.
  split; intros i x H.
  - destruct i as [|[|i]]; cbn in H; try discriminate. injection H as <-. discriminate.
  - destruct i as [|[|i]]; cbn in H; try discriminate. injection H as <-. left. reflexivity.
Qed.

Lemma has_path_lt l i p : has_path l i p -> i < List.length l.
Proof. intro H. apply nth_error_Some. inversion H; congruence. Qed.

Lemma qualified_history h h' i : i < List.length (qrun q_global h) ->
  exists p l l',
    has_path (qrun q_global h) i p /\
    qualifiedName (S (List.length (qrun q_global h))) (qrun q_global h) i = Some (l, path_text p) /\
    qualifiedName (S (List.length (qrun l h'))) (qrun l h') i = Some (l', path_text p).
Proof.
  intro Hi. destruct (qrun_ok h q_global q_global_ok) as [Hok _].
  destruct (path_exists _ Hok i Hi) as [p Hp].
  destruct (qualifiedName_ok (S (List.length (qrun q_global h))) _ i p Hok Hp) as (l & E & Hok1 & Hs); [lia|].
  destruct (qrun_ok h' l Hok1) as [Hok2 Hmono].
  assert (Hp2 : has_path (qrun l h') i p) by (apply Hmono; eapply shape_path; eassumption).
  destruct (qualifiedName_ok (S (List.length (qrun l h'))) _ i p Hok2 Hp2) as (l' & E' & _ & _).
  { apply has_path_lt in Hp2. lia. }
  eauto 7.
Qed.

(** Injectivity of [path_text]. *)
Fixpoint colons (s : string) : bool :=
  match s with EmptyString => false | String c s' => Ascii.eqb c ":" || colons s' end.

Lemma no_colon_split a b x y : colons a = false -> colons b = false ->
  (x = "" \/ exists x', x = String ":" x')%string -> (y = "" \/ exists y', y = String ":" y')%string ->
  (a ++ x = b ++ y)%string -> a = b /\ x = y.
Proof.
  revert b. induction a as [|c a IH]; intros [|d b] Ha Hb Hx Hy E; cbn in *.
  - auto.
  - destruct Hx as [->|[x' ->]]; [discriminate|]. injection E as <- _. cbn in Hb. discriminate.
  - destruct Hy as [->|[y' ->]]; [discriminate|]. injection E as -> _. cbn in Ha. discriminate.
  - injection E as -> E. apply orb_false_iff in Ha as [_ Ha]. apply orb_false_iff in Hb as [_ Hb].
    destruct (IH b Ha Hb Hx Hy E) as [-> ->]. auto.
Qed.

Lemma path_text_cons n p : path_text (n :: p) = (String ":" (String ":" (n ++ path_text p)))%string.
Proof. unfold path_text. cbn [map]. rewrite concat_cons_e. reflexivity. Qed.

Lemma path_text_head p : (path_text p = "" \/ exists x', path_text p = String ":" x')%string.
Proof. destruct p as [|n p]; [left; reflexivity|]. right. rewrite path_text_cons. eauto. Qed.

Lemma path_text_inj p : forall q, Forall (fun n => colons n = false) p -> Forall (fun n => colons n = false) q ->
  path_text p = path_text q -> p = q.
Proof.
  induction p as [|n p IH]; intros [|m q] Hp Hq E.
  - reflexivity.
  - rewrite path_text_cons in E. discriminate.
  - rewrite path_text_cons in E. discriminate.
  - rewrite !path_text_cons in E. injection E as E. inversion Hp; inversion Hq; subst.
    destruct (no_colon_split n m _ _ H1 H5 (path_text_head p) (path_text_head q) E) as [-> E'].
    f_equal. auto.
Qed.
