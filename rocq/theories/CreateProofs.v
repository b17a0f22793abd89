(** Lemmas for C36 and C37. *)
From Coq Require Import List Bool Arith Lia String Permutation.
From Verif Require Import Util DeferModel DeferProofs CreateModel CreateSpec.
Import ListNotations.

Notation at_ := CreateModel.at_.
Notation todo := CreateModel.todo.
Notation step := CreateModel.step.
Notation turn := CreateModel.turn.
Notation exec := CreateModel.exec.

Lemma key_eq_spec a b : key_eq a b = true <-> a = b.
Proof.
  destruct a as [[c o] n], b as [[c' o'] n']. unfold key_eq. rewrite !andb_true_iff, Nat.eqb_eq, String.eqb_eq.
  split.
  - intros [[H1 ->] ->]. destruct c, c'; try discriminate; reflexivity.
  - intro E. injection E as -> -> ->. destruct c'; auto.
Qed.

Lemma key_eq_refl a : key_eq a a = true.
Proof. apply key_eq_spec. reflexivity. Qed.

Lemma lookup_in l k a : lookup_key l k = Some a -> In (k, a) l.
Proof.
  induction l as [|[k' a'] l IH]; cbn; [discriminate|]. destruct (key_eq k k') eqn:E.
  - apply key_eq_spec in E. subst. intro H. injection H as ->. left; reflexivity.
  - intro H. right. apply IH; exact H.
Qed.

Lemma lookup_none l k : lookup_key l k = None <-> ~ In k (map fst l).
Proof.
  induction l as [|[k' a'] l IH]; cbn; [tauto|]. destruct (key_eq k k') eqn:E.
  - apply key_eq_spec in E. subst. split; [discriminate|tauto].
  - rewrite IH. assert (k <> k'). { intros ->. rewrite key_eq_refl in E. discriminate. }
    intuition congruence.
Qed.

Lemma in_lookup l k a : NoDup (map fst l) -> In (k, a) l -> lookup_key l k = Some a.
Proof.
  induction l as [|[k' a'] l IH]; cbn; [tauto|]. intros HN [E|H].
  - injection E as -> ->. rewrite key_eq_refl. reflexivity.
  - inversion HN as [|x y H1 H2]. subst. destruct (key_eq k k') eqn:E.
    + apply key_eq_spec in E. subst. exfalso. apply H1. apply (in_map fst) in H. exact H.
    + apply IH; assumption.
Qed.

Lemma lookup_app l l' k a : lookup_key l k = Some a -> lookup_key (l ++ l') k = Some a.
Proof.
  induction l as [|[k' a'] l IH]; cbn; [discriminate|]. destruct (key_eq k k'); auto.
Qed.

Lemma get_nonempty l k : nonempty k -> get l k = lookup_key l k.
Proof.
  destruct k as [[c o] n]. unfold nonempty. cbn. intro H. destruct (String.eqb_spec n ""); [contradiction|reflexivity].
Qed.

Lemma get_some l k a : get l k = Some a -> lookup_key l k = Some a.
Proof. destruct k as [[c o] n]. cbn. destruct (String.eqb n ""); [discriminate|auto]. Qed.

Lemma lookup_nat_in l n a : lookup_nat l n = Some a -> In (n, a) l.
Proof.
  induction l as [|[m b] l IH]; cbn; [discriminate|]. destruct (Nat.eqb_spec n m) as [->|N].
  - intro H. injection H as ->. left; reflexivity.
  - intro H. right; auto.
Qed.

Lemma in_lookup_nat l n a : In (n, a) l -> exists b, lookup_nat l n = Some b.
Proof.
  induction l as [|[m b] l IH]; cbn; [tauto|]. intros [E|H].
  - injection E as -> ->. rewrite Nat.eqb_refl. eauto.
  - destruct (n =? m); eauto.
Qed.

(** An invariant of every turn holds after every schedule. *)
Lemma exec_inv (P : memory * list agent -> Prop) :
  (forall s ts i t, P (s, ts) -> nth_error ts i = Some t -> P (fst (step s t), put ts i (snd (step s t)))) ->
  forall sch c, P c -> P (exec c sch).
Proof.
  intro H. induction sch as [|i sch IH]; intros c HP; [exact HP|]. cbn. apply IH. unfold turn.
  destruct c as [s ts]. cbn [fst snd] in *.
  destruct (nth_error ts i) as [t|] eqn:E; [|exact HP].
  specialize (H s ts i t HP E). destruct (step s t) as [s' t']. exact H.
Qed.

(** ** The invariant *)
Definition where_ok (m : memory) (p : place) : Prop :=
  match p with
  | Idle => True
  | Check k r ty => key_of r = Some k /\ exists o n, r = Class o n ty
  | Add k r a => key_of r = Some k
  | Link r ty a => exists o n, r = Class o n ty /\ In ((CClass, o, n), a) (cells m)
  | Again k r => key_of r = Some k /\ In k (map fst (cells m))
  end.

Definition answer_ok (m : memory) (e : request * answer) : Prop :=
  forall k, key_of (fst e) = Some k -> nonempty k ->
    match snd e with
    | Got (Some a) => In (k, a) (cells m)
    | Got None => False
    | Duplicate => exists o n ty a, fst e = Class o n ty /\ In (ty, a) (table m)
    end.

Definition current (p : place) : list request :=
  match p with Idle => [] | Check _ r _ | Add _ r _ | Link r _ _ | Again _ r => [r] end.

(** The whole program of a thread, as far as it is done. *)
Definition history (t : agent) : list request := map fst (got t) ++ current (at_ t) ++ todo t.

Definition flight (t : agent) : list nat := match at_ t with Add _ _ a => [a] | _ => [] end.

Definition owned (c : memory * list agent) : list nat :=
  map snd (cells (fst c)) ++ freed (fst c) ++ flat_map flight (snd c).

Record good (ps : list (list request)) (c : memory * list agent) : Prop := {
  g_keys : NoDup (map fst (cells (fst c)));
  g_where : forall i t, nth_error (snd c) i = Some t -> where_ok (fst c) (at_ t);
  g_answer : forall i t, nth_error (snd c) i = Some t -> Forall (answer_ok (fst c)) (got t);
  g_history : forall i t, nth_error (snd c) i = Some t -> nth_error ps i = Some (history t);
  g_length : List.length (snd c) = List.length ps;
  g_owned : Permutation (owned c) (seq 0 (next (fst c)));
  g_table : forall ty a, In (ty, a) (table (fst c)) ->
    exists o n, In ((CClass, o, n), a) (cells (fst c)) /\ requested ps (Class o n ty);
  g_linked : forall o n a, In ((CClass, o, n), a) (cells (fst c)) ->
    exists ty, requested ps (Class o n ty) /\ (In (ty, a) (table (fst c)) \/
      exists i t r, nth_error (snd c) i = Some t /\ at_ t = Link r ty a)
}.

(** What a step may do to the shared state. *)
Definition grows (m m' : memory) : Prop :=
  (exists l, cells m' = cells m ++ l) /\ (exists l, table m' = l ++ table m).

Lemma grows_refl m : grows m m.
Proof. split; exists []; [symmetry; apply app_nil_r|reflexivity]. Qed.

Lemma step_grows m t : grows m (fst (step m t)).
Proof.
  assert (R := grows_refl m). assert (R' : forall n f, grows m (Memory (cells m) (table m) n f)).
  { intros. split; exists []; [symmetry; apply app_nil_r|reflexivity]. }
  unfold step. destruct (at_ t).
  - destruct (todo t) as [|[o n|o n|o n ty|ty] rest]; auto; destruct (get (cells m) _); auto.
  - destruct (lookup_nat (table m) ty); auto.
  - unfold add. destruct (lookup_key (cells m) k); [apply R'|]. cbn [fst]. split; cbn; [eexists; reflexivity|].
    exists []; reflexivity.
  - cbn. split; cbn; [exists []; symmetry; apply app_nil_r|]. exists [(ty, a)]; reflexivity.
  - exact R.
Qed.

Lemma grows_cells m m' x : grows m m' -> In x (cells m) -> In x (cells m').
Proof. intros [[l ->] _] H. apply in_app_iff. left; exact H. Qed.

Lemma grows_table m m' x : grows m m' -> In x (table m) -> In x (table m').
Proof. intros [_ [l ->]] H. apply in_app_iff. right; exact H. Qed.

Lemma where_grows m m' p : grows m m' -> where_ok m p -> where_ok m' p.
Proof.
  intros G. destruct p; cbn; auto.
  - intros (o & n & -> & H). exists o, n. split; [reflexivity|eapply grows_cells; eassumption].
  - intros [H1 H2]. split; [exact H1|]. apply in_map_iff in H2. destruct H2 as ([k' a] & E & H2). cbn in E. subst k'.
    change k with (fst (k, a)). apply in_map. eapply grows_cells; eassumption.
Qed.

Lemma answer_grows m m' e : grows m m' -> answer_ok m e -> answer_ok m' e.
Proof.
  intros G H k Hk Hn. specialize (H k Hk Hn). destruct (snd e) as [[a|]|]; auto.
  - eapply grows_cells; eassumption.
  - destruct H as (o & n & ty & a & E & H). exists o, n, ty, a. split; [exact E|eapply grows_table; eassumption].
Qed.

Lemma add_some l k a l' : add l k a = Some l' -> lookup_key l k = None /\ l' = l ++ [(k, a)].
Proof. unfold add. destruct (lookup_key l k); [discriminate|]. intro E. injection E as <-. auto. Qed.

Lemma add_none l k a : add l k a = None -> In k (map fst l).
Proof.
  unfold add. destruct (lookup_key l k) as [b|] eqn:E; [|discriminate]. intros _.
  apply lookup_in in E. apply (in_map fst) in E. exact E.
Qed.

(** The stepping thread stays well-formed. *)
Lemma step_agent m t : where_ok m (at_ t) -> Forall (answer_ok m) (got t) ->
  where_ok (fst (step m t)) (at_ (snd (step m t))) /\
  Forall (answer_ok (fst (step m t))) (got (snd (step m t))) /\
  history (snd (step m t)) = history t.
Proof.
  intros HW HA. pose proof (step_grows m t) as G.
  assert (HA' : Forall (answer_ok (fst (step m t))) (got t)).
  { eapply Forall_impl; [|exact HA]. intros e He. eapply answer_grows; eassumption. }
  revert G HA'. unfold step, history. destruct (at_ t) eqn:Ea.
  - destruct (todo t) as [|r rest] eqn:Et.
    { cbn. rewrite Ea, Et. auto. }
    assert (Hgot : forall k, key_of r = Some k -> forall a, get (cells m) k = Some a ->
              Forall (answer_ok m) (got t ++ [(r, Got (Some a))])).
    { intros k Hk a Ha. apply Forall_app. split; [exact HA|]. constructor; [|constructor]. intros k' Hk' Hn. cbn in *.
      rewrite Hk in Hk'. injection Hk' as <-. apply lookup_in, get_some. exact Ha. }
    assert (Hh : forall x, map fst (got t ++ [(r, x)]) ++ [] ++ rest = map fst (got t) ++ [] ++ r :: rest).
    { intro x. rewrite map_app, <- app_assoc. reflexivity. }
    destruct r as [o n|o n|o n ty|ty]; cbn zeta.
    + destruct (get (cells m) (CNamespace, o, n)) as [a|] eqn:Eg; cbn; intros G HA'.
      * split; [exact I|]. split; [eapply Hgot; [reflexivity|exact Eg]|apply Hh].
      * split; [reflexivity|]. split; [exact HA'|reflexivity].
    + destruct (get (cells m) (CEnum, o, n)) as [a|] eqn:Eg; cbn; intros G HA'.
      * split; [exact I|]. split; [eapply Hgot; [reflexivity|exact Eg]|apply Hh].
      * split; [reflexivity|]. split; [exact HA'|reflexivity].
    + destruct (get (cells m) (CClass, o, n)) as [a|] eqn:Eg; cbn; intros G HA'.
      * split; [exact I|]. split; [eapply Hgot; [reflexivity|exact Eg]|apply Hh].
      * split; [split; [reflexivity|eauto]|]. split; [exact HA'|reflexivity].
    + cbn. intros G HA'. split; [exact I|]. split; [|apply Hh]. apply Forall_app. split; [exact HA|].
      constructor; [|constructor]. intros k Hk. discriminate.
  - destruct HW as (Hk & o & n & ->). destruct (lookup_nat (table m) ty) as [b|] eqn:El; cbn; intros G HA'.
    + split; [exact I|]. split.
      * apply Forall_app. split; [exact HA|]. constructor; [|constructor]. intros k' Hk' Hn. cbn.
        exists o, n, ty, b. split; [reflexivity|]. apply lookup_nat_in. exact El.
      * rewrite map_app, <- app_assoc. reflexivity.
    + split; [exact Hk|]. split; [exact HA'|reflexivity].
  - cbn in HW. destruct (add (cells m) k a) as [l|] eqn:Eadd.
    + apply add_some in Eadd. destruct Eadd as [El ->].
      assert (Hown : In (k, a) (cells m ++ [(k, a)])) by (apply in_app_iff; right; left; reflexivity).
      assert (Hans : forall m', cells m' = cells m ++ [(k, a)] -> Forall (answer_ok m') (got t) ->
                Forall (answer_ok m') (got t ++ [(r, Got (Some a))])).
      { intros m' E HA'. apply Forall_app. split; [exact HA'|]. constructor; [|constructor].
        intros k' Hk' Hn. cbn in *. rewrite HW in Hk'. injection Hk' as <-. rewrite E. exact Hown. }
      destruct r as [o n|o n|o n ty|ty]; cbn; intros G HA'.
      * split; [exact I|]. split; [apply Hans; [reflexivity|exact HA']|]. rewrite map_app, <- app_assoc. reflexivity.
      * split; [exact I|]. split; [apply Hans; [reflexivity|exact HA']|]. rewrite map_app, <- app_assoc. reflexivity.
      * split; [|split; [exact HA'|reflexivity]]. exists o, n. split; [reflexivity|]. injection HW as <-. exact Hown.
      * discriminate.
    + apply add_none in Eadd. cbn. intros G HA'. split; [split; [exact HW|exact Eadd]|]. split; [exact HA'|reflexivity].
  - destruct HW as (o & n & -> & Hin). cbn. intros G HA'. split; [exact I|]. split.
    + apply Forall_app. split; [exact HA'|]. constructor; [|constructor]. intros k Hk Hn. cbn in *. injection Hk as <-.
      exact Hin.
    + rewrite map_app, <- app_assoc. reflexivity.
  - destruct HW as [Hk Hin]. cbn. intros G HA'. split; [exact I|]. split.
    + apply Forall_app. split; [exact HA|]. constructor; [|constructor]. intros k' Hk' Hn. cbn in *.
      rewrite Hk in Hk'. injection Hk' as <-. rewrite get_nonempty by exact Hn.
      destruct (lookup_key (cells m) k) as [b|] eqn:El; [apply lookup_in; exact El|].
      apply lookup_none in El. contradiction.
    + rewrite map_app, <- app_assoc. reflexivity.
Qed.

Lemma seq_snoc n : seq 0 (S n) = seq 0 n ++ [n].
Proof. rewrite seq_S. reflexivity. Qed.

(** Objects: what the step allocates, stores and deletes balances. *)
Lemma step_owned m t (l r : list nat) :
  Permutation (map snd (cells m) ++ freed m ++ l ++ flight t ++ r) (seq 0 (next m)) ->
  Permutation (map snd (cells (fst (step m t))) ++ freed (fst (step m t)) ++ l ++ flight (snd (step m t)) ++ r)
    (seq 0 (next (fst (step m t)))).
Proof.
  assert (HG : forall x, flight t = [] ->
    Permutation (map snd (cells m) ++ freed m ++ l ++ flight t ++ r) (seq 0 (next m)) ->
    Permutation (map snd (cells m) ++ freed m ++ l ++ [x] ++ r) (seq 0 (next m) ++ [x])).
  { intros x E H. rewrite E in H. cbn [app] in *. rewrite !app_assoc in *.
    etransitivity; [symmetry; apply Permutation_middle|].
    etransitivity; [apply perm_skip; exact H|]. apply Permutation_cons_append. }
  unfold step, flight. destruct (at_ t) eqn:Ea.
  - destruct (todo t) as [|[o n|o n|o n ty|ty] rest]; cbn zeta.
    + cbn [fst snd]. rewrite Ea. auto.
    + destruct (get (cells m) (CNamespace, o, n)); cbn [fst snd CreateModel.at_ cells freed next]; auto.
      intro H. rewrite seq_snoc. apply HG; unfold flight; rewrite Ea; auto.
    + destruct (get (cells m) (CEnum, o, n)); cbn [fst snd CreateModel.at_ cells freed next]; auto.
      intro H. rewrite seq_snoc. apply HG; unfold flight; rewrite Ea; auto.
    + destruct (get (cells m) (CClass, o, n)); cbn [fst snd CreateModel.at_ cells freed next]; auto.
    + cbn [fst snd CreateModel.at_ cells freed next]. auto.
  - destruct (lookup_nat (table m) ty); cbn [fst snd CreateModel.at_ cells freed next]; auto.
    intro H. rewrite seq_snoc. apply HG; unfold flight; rewrite Ea; auto.
  - destruct (add (cells m) k a) as [c|] eqn:Eadd.
    + apply add_some in Eadd. destruct Eadd as [_ ->].
      assert (HM : Permutation (map snd (cells m) ++ freed m ++ l ++ [a] ++ r) (seq 0 (next m)) ->
        Permutation (map snd (cells m ++ [(k, a)]) ++ freed m ++ l ++ [] ++ r) (seq 0 (next m))).
      { intro H. rewrite <- H. rewrite map_app, <- app_assoc. apply Permutation_app_head. cbn.
        rewrite !app_assoc. apply Permutation_middle. }
      destruct r0; cbn [fst snd CreateModel.at_ cells freed next]; exact HM.
    + cbn [fst snd CreateModel.at_ cells freed next]. intro H. rewrite <- H. apply Permutation_app_head. cbn.
      rewrite !app_assoc. apply Permutation_middle.
  - cbn [fst snd CreateModel.at_ cells freed next]. auto.
  - cbn [fst snd CreateModel.at_ cells freed next]. auto.
Qed.

Lemma step_keys m t : NoDup (map fst (cells m)) -> NoDup (map fst (cells (fst (step m t)))).
Proof.
  intro H. unfold step. destruct (at_ t); auto.
  - destruct (todo t) as [|[o n|o n|o n ty|ty] rest]; auto; destruct (get (cells m) _); auto.
  - destruct (lookup_nat (table m) ty); auto.
  - destruct (add (cells m) k a) as [c|] eqn:Eadd; [|exact H]. apply add_some in Eadd. destruct Eadd as [E ->].
    cbn. rewrite map_app. apply NoDup_snoc; [exact H|]. apply lookup_none. exact E.
Qed.

Lemma step_table m t ty a : In (ty, a) (table (fst (step m t))) ->
  In (ty, a) (table m) \/ exists r, at_ t = Link r ty a.
Proof.
  unfold step. destruct (at_ t); cbn; auto.
  - destruct (todo t) as [|[o n|o n|o n tz|tz] rest]; cbn; auto;
      match goal with |- context [String.eqb ?x ?y] => destruct (String.eqb x y) end; cbn; auto;
      destruct (lookup_key (cells m) _); auto.
  - destruct (lookup_nat (table m) ty0); auto.
  - destruct (add (cells m) k a0); auto.
  - intros [E|H]; [|auto]. injection E as -> ->. eauto.
Qed.

(** A new class is about to be linked. *)
Lemma step_cells m t k a : where_ok m (at_ t) -> In (k, a) (cells (fst (step m t))) -> In (k, a) (cells m) \/
  (exists r, at_ t = Add k r a /\ key_of r = Some k /\
     forall o n ty, r = Class o n ty -> at_ (snd (step m t)) = Link r ty a).
Proof.
  intros HW. unfold step. destruct (at_ t) eqn:Ea; cbn; auto.
  - destruct (todo t) as [|[o n|o n|o n tz|tz] rest]; cbn; auto;
      match goal with |- context [String.eqb ?x ?y] => destruct (String.eqb x y) end; cbn; auto;
      destruct (lookup_key (cells m) _); auto.
  - destruct (lookup_nat (table m) ty); auto.
  - destruct (add (cells m) k0 a0) as [l|] eqn:Eadd; cbn; auto. apply add_some in Eadd. destruct Eadd as [_ ->].
    intro H. apply in_app_iff in H. destruct H as [H|[E|[]]]; [auto|]. injection E as -> ->. right. exists r.
    split; [reflexivity|]. split; [exact HW|]. intros o n ty ->. reflexivity.
Qed.

Lemma step_link m t r ty a : at_ t = Link r ty a -> In (ty, a) (table (fst (step m t))).
Proof. intro E. unfold step. rewrite E. left. reflexivity. Qed.

Lemma good_step ps m ts i t : good ps (m, ts) -> nth_error ts i = Some t ->
  good ps (fst (step m t), put ts i (snd (step m t))).
Proof.
  intros [K W A H L O T N0] Hi. cbn [fst snd] in *. pose proof (step_grows m t) as G.
  destruct (step_agent m t (W _ _ Hi) (A _ _ Hi)) as (W' & A' & H').
  constructor; cbn [fst snd].
  - apply step_keys; exact K.
  - intros j u Hj. apply put_nth in Hj. destruct Hj as [[-> ->]|[N Hj]]; [exact W'|].
    eapply where_grows; [exact G|eapply W; exact Hj].
  - intros j u Hj. apply put_nth in Hj. destruct Hj as [[-> ->]|[N Hj]]; [exact A'|].
    eapply Forall_impl; [|eapply A; exact Hj]. intros e He. eapply answer_grows; eassumption.
  - intros j u Hj. apply put_nth in Hj. destruct Hj as [[-> ->]|[N Hj]]; [|apply H; exact Hj].
    rewrite H'. apply H. exact Hi.
  - rewrite put_length. exact L.
  - destruct (split_at ts i t Hi) as (l & r & -> & _ & HP). rewrite HP. unfold owned in *. cbn [fst snd] in *.
    rewrite flat_map_app in *. cbn [flat_map] in *. apply step_owned. exact O.
  - intros ty a Hin. apply step_table in Hin. destruct Hin as [Hin|[r Ea]].
    + destruct (T ty a Hin) as (o & n & H1 & H2). exists o, n. split; [eapply grows_cells; eassumption|exact H2].
    + specialize (W _ _ Hi). rewrite Ea in W. destruct W as (o & n & -> & Hc). exists o, n.
      split; [eapply grows_cells; eassumption|]. specialize (H _ _ Hi). exists (history t).
      split; [eapply nth_error_In; exact H|]. unfold history. rewrite Ea. apply in_app_iff. right. left. reflexivity.
  - intros o n a Hin. apply step_cells in Hin; [|eapply W; exact Hi]. destruct Hin as [Hin|(r & Ea & Hk & Hl)].
    + destruct (N0 o n a Hin) as (ty & Hr & HL). exists ty. split; [exact Hr|]. destruct HL as [HL|(j & u & r & Hj & Hu)].
      * left. eapply grows_table; eassumption.
      * destruct (Nat.eq_dec j i) as [->|N].
        -- left. assert (u = t) by congruence. subst u. eapply step_link; exact Hu.
        -- right. exists j, u, r. split; [rewrite put_other by congruence; exact Hj|exact Hu].
    + destruct r as [o' n'|o' n'|o' n' ty|ty]; try discriminate. injection Hk as -> ->. exists ty. split.
      * exists (history t). split; [eapply nth_error_In, H; exact Hi|]. unfold history. rewrite Ea.
        apply in_app_iff. right. left. reflexivity.
      * right. exists i. eexists _, _. split; [apply put_same; apply nth_error_Some; congruence|].
        eapply Hl. reflexivity.
Qed.

Lemma good_start ps : good ps (start ps).
Proof.
  assert (F : forall i t, nth_error (snd (start ps)) i = Some t -> exists l, nth_error ps i = Some l /\ t = Agent Idle l []).
  { intros i t. cbn. rewrite nth_error_map. destruct (nth_error ps i) as [l|]; cbn; [|discriminate].
    intro E. injection E as <-. eauto. }
  constructor; cbn [fst snd start cells table next freed].
  - constructor.
  - intros i t Hi. destruct (F i t Hi) as (l & _ & ->). exact I.
  - intros i t Hi. destruct (F i t Hi) as (l & _ & ->). constructor.
  - intros i t Hi. destruct (F i t Hi) as (l & Hl & ->). exact Hl.
  - apply map_length.
  - unfold owned. cbn. replace (flat_map flight _) with (@nil nat); [constructor|].
    clear. induction ps as [|p ps IH]; cbn; auto.
  - intros ty a [].
  - intros o n a [].
Qed.

Lemma good_always ps sch : good ps (exec (start ps) sch).
Proof. apply exec_inv; [intros; apply good_step; assumption|apply good_start]. Qed.

(** ** Growth over schedules *)
Lemma grows_trans a b c : grows a b -> grows b c -> grows a c.
Proof.
  intros [[l E1] [k E2]] [[l' E3] [k' E4]]. unfold grows. rewrite E3, E4, E1, E2. split.
  - exists (l ++ l'). symmetry. apply app_assoc.
  - exists (k' ++ k). apply app_assoc.
Qed.

Lemma exec_grows sch : forall c, grows (fst c) (fst (exec c sch)).
Proof.
  induction sch as [|i sch IH]; intro c; [apply grows_refl|]. cbn. eapply grows_trans; [|apply IH].
  unfold turn. destruct (nth_error (snd c) i) as [t|]; [|apply grows_refl].
  pose proof (step_grows (fst c) t). destruct (step (fst c) t). exact H.
Qed.

(** ** Bounded work *)
Definition cost (t : agent) : nat :=
  (match at_ t with Idle => 0 | Again _ _ => 1 | Link _ _ _ => 1 | Add _ _ _ => 2 | Check _ _ _ => 3 end)
  + 4 * List.length (todo t).

Lemma step_cost m t : (at_ t = Idle /\ todo t = []) \/ cost (snd (step m t)) < cost t.
Proof.
  unfold step, cost. destruct (at_ t) eqn:Ea.
  - destruct (todo t) as [|[o n|o n|o n ty|ty] rest]; auto; right;
      try destruct (get (cells m) _); cbn; lia.
  - right. destruct (lookup_nat (table m) ty); cbn; lia.
  - right. destruct (add (cells m) k a); [|cbn; lia]. destruct r; cbn; lia.
  - right. cbn. lia.
  - right. cbn. lia.
Qed.

Lemma work sch : forall c i t, nth_error (snd c) i = Some t ->
  exists u, nth_error (snd (exec c sch)) i = Some u /\
    ((at_ u = Idle /\ todo u = []) \/ cost u + count_occ Nat.eq_dec sch i <= cost t).
Proof.
  induction sch as [|j sch IH]; intros c i t Hi.
  - exists t. split; [exact Hi|right; cbn; lia].
  - cbn [exec fold_left]. fold (exec (turn c j) sch).
    assert (HT : exists t', nth_error (snd (turn c j)) i = Some t' /\
              ((at_ t' = Idle /\ todo t' = []) \/ cost t' + (if Nat.eq_dec j i then 1 else 0) <= cost t)).
    { unfold turn. destruct (Nat.eq_dec j i) as [->|N].
      - rewrite Hi. destruct (step (fst c) t) as [s' t'] eqn:Es. cbn [snd]. exists t'.
        split; [apply put_same; apply nth_error_Some; congruence|].
        destruct (step_cost (fst c) t) as [[Q1 Q2]|Q].
        + left. unfold step in Es. rewrite Q1, Q2 in Es. injection Es as _ <-. auto.
        + rewrite Es in Q. cbn [snd] in Q. right. lia.
      - exists t. split; [|right; lia]. destruct (nth_error (snd c) j); [|exact Hi].
        destruct (step (fst c) a). cbn. rewrite put_other by congruence. exact Hi. }
    destruct HT as (t' & Hi' & HS). destruct (IH _ _ _ Hi') as (u & Hu & HU). exists u. split; [exact Hu|].
    cbn [count_occ]. destruct HU as [HU|HU]; [left; exact HU|]. destruct HS as [[H1 H2]|HS].
    + left. unfold cost in HU at 2. rewrite H1, H2 in HU. cbn in HU. unfold cost in HU.
      destruct (at_ u); cbn in HU; try lia. destruct (todo u); cbn in HU; [auto|lia].
    + right. destruct (Nat.eq_dec j i); lia.
Qed.
