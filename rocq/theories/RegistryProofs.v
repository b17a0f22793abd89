(** Proofs about the registry, [metaTypeId] and converters. *)
From Coq Require Import NArith List Bool Arith String Lia.
From Verif Require Import Util TypesModel TypesSpec TypesProofs RegistryModel.
Import ListNotations.
Local Open Scope list_scope.

(** ** Association lists *)

Lemma assoc_app {K V} (eqb : K -> K -> bool) k (l1 l2 : list (K * V)) :
  assoc eqb k (l1 ++ l2) = match assoc eqb k l1 with Some v => Some v | None => assoc eqb k l2 end.
Proof. induction l1 as [|[k' v] l1 IH]; cbn; [reflexivity|]. destruct (eqb k k'); auto. Qed.

Lemma assoc_erase {K V} (eqb : K -> K -> bool) (Heq : forall a b, eqb a b = true <-> a = b)
  k k' (l : list (K * V)) :
  assoc eqb k (erase eqb k' l) = if eqb k' k then None else assoc eqb k l.
Proof.
  unfold erase. induction l as [|[a v] l IH]; cbn.
  - destruct (eqb k' k); reflexivity.
  - destruct (eqb k' a) eqn:E1; cbn.
    + rewrite IH. apply Heq in E1; subst a. destruct (eqb k' k) eqn:E2; [reflexivity|].
      destruct (eqb k k') eqn:E3; [|reflexivity]. apply Heq in E3; subst.
      assert (eqb k' k' = true) by (apply Heq; reflexivity). congruence.
    + destruct (eqb k a) eqn:E2.
      * apply Heq in E2; subst a. rewrite E1. reflexivity.
      * exact IH.
Qed.

Lemma assoc_combine n l s i :
  assoc String.eqb n (combine l (seq s (List.length l))) = Some i ->
  s <= i /\ nth_error l (i - s) = Some n.
Proof.
  revert s. induction l as [|a l IH]; intros s; cbn; [discriminate|].
  destruct (String.eqb_spec n a) as [->|Hn].
  - intro H. injection H as <-. split; [lia|]. rewrite Nat.sub_diag. reflexivity.
  - intro H. apply IH in H as [H1 H2]. split; [lia|].
    replace (i - s) with (S (i - S s)) by lia. exact H2.
Qed.

Lemma assoc_combine_None n l s :
  assoc String.eqb n (combine l (seq s (List.length l))) = None <-> ~ In n l.
Proof.
  revert s. induction l as [|a l IH]; intros s; cbn; [tauto|].
  destruct (String.eqb_spec n a) as [->|Hn].
  - split; [discriminate|tauto].
  - rewrite IH. intuition.
Qed.

(** ** The registry *)

Definition names (r : registry) : list string := map tr_name (r_items r).

Record reg_inv (r : registry) : Prop := {
  ri_live : r_destroyed r = false;
  ri_names : r_names r = combine (names r) (seq 0 (List.length (names r)));
  ri_nodup : NoDup (names r);
  ri_nonempty : ~ In ""%string (names r) }.

Lemma reg0_inv : reg_inv reg0.
Proof. split; cbn; auto. constructor. Qed.

Lemma combine_app {A B} (l1 l2 : list A) (m1 m2 : list B) : List.length l1 = List.length m1 ->
  combine (l1 ++ l2) (m1 ++ m2) = combine l1 m1 ++ combine l2 m2.
Proof.
  revert m1. induction l1 as [|a l1 IH]; intros [|b m1] H; cbn in *; try discriminate; [reflexivity|].
  f_equal. apply IH. lia.
Qed.

Lemma register_cases r n i dec : reg_inv r ->
  (n = ""%string /\ register r n i dec = (r, None)) \/
  (n <> ""%string /\ exists id, nth_error (names r) id = Some n /\ register r n i dec = (r, Some id)) \/
  (n <> ""%string /\ ~ In n (names r) /\
   exists r', register r n i dec = (r', Some (List.length (r_items r))) /\ reg_inv r' /\
     r_items r' = r_items r ++ [{| tr_name := n; tr_info := i;
       tr_decay := match dec with Some d => d | None => List.length (r_items r) end |}]).
Proof.
  intros [Hl Hn Hd He]. unfold register. rewrite Hl.
  destruct (String.eqb_spec n ""%string) as [->|Hne]; [left; auto|right].
  destruct (assoc String.eqb n (r_names r)) as [id|] eqn:Ea.
  - left. split; [exact Hne|]. exists id. split; [|reflexivity].
    rewrite Hn in Ea. apply assoc_combine in Ea as [_ Ea]. rewrite Nat.sub_0_r in Ea. exact Ea.
  - right. rewrite Hn in Ea. apply assoc_combine_None in Ea. split; [exact Hne|]. split; [exact Ea|].
    eexists. split; [reflexivity|]. split; [|reflexivity].
    unfold names in *. split; cbn [r_destroyed r_names r_items]; auto.
    + unfold names. cbn [r_items]. rewrite map_app, app_length, seq_app. cbn [map List.length].
      rewrite map_length in *. rewrite combine_app by (rewrite map_length, seq_length; reflexivity).
      cbn [Nat.add combine tr_name seq]. rewrite Hn. reflexivity.
    + unfold names. cbn [r_items]. rewrite map_app. cbn [map tr_name]. apply NoDup_snoc; assumption.
    + unfold names. cbn [r_items]. rewrite map_app, in_app_iff. cbn [map tr_name In]. intuition.
Qed.

Lemma register_inv r n i dec : reg_inv r -> reg_inv (fst (register r n i dec)).
Proof.
  intro H. destruct (register_cases r n i dec H) as [(_ & ->)|[(_ & id & _ & ->)|(_ & _ & r' & -> & Hr & _)]];
    cbn; auto.
Qed.

Lemma rrun_inv h r : reg_inv r -> reg_inv (rrun r h).
Proof.
  revert r. induction h as [|o h IH]; intros r Hr; cbn; [exact Hr|]. apply IH.
  destruct o; cbn; [apply register_inv|]; exact Hr.
Qed.

(** Items are only appended. *)
Lemma register_prefix r n i dec : reg_inv r ->
  exists l, r_items (fst (register r n i dec)) = r_items r ++ l.
Proof.
  intro H. destruct (register_cases r n i dec H) as [(_ & ->)|[(_ & id & _ & ->)|(_ & _ & r' & -> & _ & E)]]; cbn.
  - exists []. symmetry; apply app_nil_r.
  - exists []. symmetry; apply app_nil_r.
  - rewrite E. eauto.
Qed.

Lemma rrun_prefix h r : reg_inv r -> exists l, r_items (rrun r h) = r_items r ++ l.
Proof.
  revert r. induction h as [|o h IH]; intros r Hr.
  - exists []. symmetry; apply app_nil_r.
  - change (rrun r (o :: h)) with (rrun (rstep r o) h). assert (Hs : reg_inv (rstep r o)) by (destruct o; cbn; [apply register_inv|]; exact Hr).
    destruct (IH _ Hs) as [l El].
    assert (Hp : exists l', r_items (rstep r o) = r_items r ++ l').
    { destruct o; cbn; [apply register_prefix; exact Hr|]. exists []. symmetry; apply app_nil_r. }
    destruct Hp as [l' El']. rewrite El, El', <- app_assoc. eauto.
Qed.

Lemma find_name_spec r n i : reg_inv r ->
  (find_name r n = Some i <-> exists x, nth_error (r_items r) i = Some x /\ tr_name x = n).
Proof.
  intros [Hl Hn Hd He]. unfold find_name. rewrite Hl. split.
  - destruct (String.eqb_spec n ""%string) as [->|Hne]; [discriminate|]. rewrite Hn. intro H.
    apply assoc_combine in H as [_ H]. rewrite Nat.sub_0_r in H. unfold names in H.
    rewrite nth_error_map in H. destruct (nth_error (r_items r) i) as [x|] eqn:E; [|discriminate].
    injection H as H. eauto.
  - intros (x & Hx & Hnm).
    assert (Hin : nth_error (names r) i = Some n)
      by (unfold names; rewrite nth_error_map, Hx; cbn; congruence).
    assert (Hne : n <> ""%string).
    { intros ->. apply He. eapply nth_error_In; exact Hin. }
    apply String.eqb_neq in Hne. rewrite Hne. rewrite Hn.
    destruct (assoc String.eqb n (combine (names r) (seq 0 (List.length (names r))))) as [j|] eqn:Ea.
    + apply assoc_combine in Ea as [_ Ea]. rewrite Nat.sub_0_r in Ea. f_equal.
      apply (proj1 (NoDup_nth_error (names r)) Hd).
      * apply nth_error_Some. congruence.
      * congruence.
    + apply assoc_combine_None in Ea. destruct Ea. eapply nth_error_In; exact Hin.
Qed.

Lemma register_find r n i dec : reg_inv r -> n <> ""%string ->
  exists id, snd (register r n i dec) = Some id /\ find_name (fst (register r n i dec)) n = Some id.
Proof.
  intros Hr Hne. destruct (register_cases r n i dec Hr)
    as [(E & _)|[(_ & id & Hid & ->)|(_ & _ & r' & -> & Hr' & E)]]; [contradiction| |]; cbn [fst snd].
  - exists id. split; [reflexivity|]. apply find_name_spec; [exact Hr|].
    unfold names in Hid. rewrite nth_error_map in Hid.
    destruct (nth_error (r_items r) id) as [x|]; [|discriminate]. injection Hid as Hid. eauto.
  - exists (List.length (r_items r)). split; [reflexivity|]. apply find_name_spec; [exact Hr'|].
    rewrite E. eexists. split; [rewrite nth_error_app2, Nat.sub_diag by lia; reflexivity|reflexivity].
Qed.

Lemma find_stable r h n id : reg_inv r -> find_name r n = Some id -> find_name (rrun r h) n = Some id.
Proof.
  intros Hr Hf. apply (find_name_spec r n id Hr) in Hf as (x & Hx & Hn).
  apply find_name_spec; [apply rrun_inv; exact Hr|].
  destruct (rrun_prefix h r Hr) as [l ->]. exists x. split; [apply nth_prefix; exact Hx|exact Hn].
Qed.

Lemma register_known r n i dec id : reg_inv r -> find_name r n = Some id -> register r n i dec = (r, Some id).
Proof.
  intros Hr Hf. destruct (register_cases r n i dec Hr)
    as [(E & _)|[(Hne & id' & Hid & ->)|(_ & Hni & _)]].
  - subst n. unfold find_name in Hf. rewrite (ri_live r Hr) in Hf. discriminate.
  - f_equal. f_equal. unfold names in Hid. rewrite nth_error_map in Hid.
    destruct (nth_error (r_items r) id') as [x|] eqn:Ex; [|discriminate]. injection Hid as Hid.
    assert (find_name r n = Some id') by (apply find_name_spec; eauto). congruence.
  - exfalso. apply Hni. apply (find_name_spec r n id Hr) in Hf as (x & Hx & <-).
    apply in_map. eapply nth_error_In; exact Hx.
Qed.

(** Registration followed by anything: look-up and re-registration give the same identifier, which
    keeps naming the type and its description. *)
Lemma register_then h h' n i dec :
  n <> ""%string ->
  let s := rrun reg0 h in
  exists id x,
    snd (register s n i dec) = Some id /\
    let s' := rrun (fst (register s n i dec)) h' in
    find_name s' n = Some id /\
    (forall i' dec', register s' n i' dec' = (s', Some id)) /\
    lookup_id (fst (register s n i dec)) (Some id) = DOk x /\
    lookup_id s' (Some id) = DOk x /\ tr_name x = n.
Proof.
  intros Hne s. assert (Hs : reg_inv s) by (apply rrun_inv, reg0_inv).
  destruct (register_find s n i dec Hs Hne) as (id & Hid & Hf).
  assert (Hs1 : reg_inv (fst (register s n i dec))) by (apply register_inv; exact Hs).
  pose proof Hf as Hx. apply (find_name_spec _ n id Hs1) in Hx as (x & Hx & Hn).
  exists id, x. split; [exact Hid|]. cbn zeta.
  assert (Hs' := rrun_inv h' _ Hs1).
  assert (Hf' := find_stable _ h' n id Hs1 Hf).
  split; [exact Hf'|]. split; [intros; apply register_known; assumption|].
  unfold lookup_id. rewrite (ri_live _ Hs1), (ri_live _ Hs'), Hx.
  destruct (rrun_prefix h' _ Hs1) as [l ->]. rewrite (nth_prefix _ l _ _ Hx). auto.
Qed.

Lemma find_injective h n1 n2 id :
  find_name (rrun reg0 h) n1 = Some id -> find_name (rrun reg0 h) n2 = Some id -> n1 = n2.
Proof.
  assert (Hs : reg_inv (rrun reg0 h)) by (apply rrun_inv, reg0_inv).
  intros H1 H2. apply (find_name_spec _ _ _ Hs) in H1 as (x & Hx & <-), H2 as (y & Hy & <-). congruence.
Qed.

(** Only registered names are found. *)
Fixpoint mentions (n : string) (h : list rop) : Prop :=
  match h with
  | [] => False
  | OReg n' _ _ :: h' => n = n' \/ mentions n h'
  | OFind _ :: h' => mentions n h'
  end.

Lemma find_only_registered h n : n <> ""%string ->
  (find_name (rrun reg0 h) n = None <-> ~ mentions n h).
Proof.
  intro Hne.
  assert (G : forall h r, reg_inv r -> (find_name (rrun r h) n = None <-> find_name r n = None /\ ~ mentions n h)).
  { clear h. induction h as [|o h IH]; intros r Hr; cbn [rrun fold_left mentions].
    - tauto.
    - assert (Hs : reg_inv (rstep r o)) by (destruct o; cbn; [apply register_inv|]; exact Hr).
      change (fold_left rstep h (rstep r o)) with (rrun (rstep r o) h). rewrite (IH _ Hs).
      destruct o as [n' i dec|n']; cbn [rstep mentions]; [|tauto].
      destruct (string_dec n n') as [<-|Hn'].
      + destruct (register_find r n i dec Hr Hne) as (id & _ & Hf). rewrite Hf.
        split; [intros [H _]; discriminate|]. intros [_ H]. destruct H; auto.
      + assert (E : find_name (fst (register r n' i dec)) n = find_name r n).
        { destruct (register_cases r n' i dec Hr)
            as [(_ & ->)|[(_ & id & _ & ->)|(_ & _ & r' & -> & Hr' & E)]]; cbn [fst]; auto.
          destruct (find_name r n) as [j|] eqn:Ej.
          - apply (find_name_spec _ _ _ Hr) in Ej as (x & Hx & Hnm).
            apply find_name_spec; [exact Hr'|]. rewrite E. exists x. split; [apply nth_prefix|]; assumption.
          - destruct (find_name r' n) as [j|] eqn:Ej'; [|reflexivity].
            apply (find_name_spec _ _ _ Hr') in Ej' as (x & Hx & Hnm). rewrite E in Hx.
            destruct (Nat.lt_ge_cases j (List.length (r_items r))) as [Hlt|Hge].
            + rewrite nth_error_app1 in Hx by exact Hlt.
              assert (find_name r n = Some j) by (apply find_name_spec; eauto). congruence.
            + rewrite nth_error_app2 in Hx by exact Hge.
              destruct (j - List.length (r_items r)) as [|[|k]]; cbn in Hx; try discriminate.
              injection Hx as <-. cbn in Hnm. congruence. }
        rewrite E. intuition. }
  rewrite (G h reg0 reg0_inv). split; [tauto|]. split; [|assumption].
  unfold find_name. cbn. destruct (n =? "")%string; reflexivity.
Qed.

(** ** metaTypeId *)

Lemma qeqb_spec a b : qeqb a b = true <-> a = b.
Proof. unfold qeqb. destruct (qty_eq_dec a b); split; congruence. Qed.

(** What the state says about type [q] with identifier [id]. *)
Definition describes (nm : qty -> string) (r : registry) (q : qty) (id : nat) : Prop :=
  exists x, nth_error (r_items r) id = Some x /\ tr_name x = nm q /\ tr_info x = info_of q /\
    exists y, nth_error (r_items r) (tr_decay x) = Some y /\
      (is_void (full_decay q) = false ->
         tr_name y = nm (full_decay q) /\ tr_info y = info_of (full_decay q)) /\
      (is_void (full_decay q) = true -> tr_decay x = id) /\
      tr_decay y = tr_decay x.

Record m_inv (nm : qty -> string) (s : mstate) : Prop := {
  mi_reg : reg_inv (m_reg s);
  mi_ids : forall q id, assoc qeqb q (m_ids s) = Some id ->
     exists i, id = Some i /\ describes nm (m_reg s) q i;
  mi_all : forall i x, nth_error (r_items (m_reg s)) i = Some x -> exists q, nm q = tr_name x /\
     assoc qeqb q (m_ids s) = Some (Some i) }.

Lemma describes_mono nm r r' l q i : r_items r' = r_items r ++ l -> describes nm r q i -> describes nm r' q i.
Proof.
  intros E (x & Hx & Hn & Hi & y & Hy & Hd & Hv & Hdd). exists x. rewrite E.
  split; [apply nth_prefix; exact Hx|]. split; [exact Hn|]. split; [exact Hi|].
  exists y. split; [apply nth_prefix; exact Hy|]. auto.
Qed.

Section MetaTypeId.
  Variable nm : qty -> string.
  Hypothesis nm_inj : forall a b, nm a = nm b -> a = b.
  Hypothesis nm_nonempty : forall a, nm a <> ""%string.

  Lemma m0_inv : m_inv nm m0.
  Proof. split; cbn; [apply reg0_inv|discriminate|]. intros [|i] x H; discriminate. Qed.

  (** Registering one more type whose decayed type is already there (or is itself, or void). *)
  Lemma reg_step s q dec : m_inv nm s -> assoc qeqb q (m_ids s) = None ->
    match dec with
    | None => q = full_decay q \/ is_void (full_decay q) = true
    | Some d => is_void (full_decay q) = false /\
        assoc qeqb (full_decay q) (m_ids s) = Some (Some d)
    end ->
    exists r i, register (m_reg s) (nm q) (info_of q) dec = (r, Some i) /\
      m_inv nm {| m_reg := r; m_ids := m_ids s ++ [(q, Some i)] |} /\
      describes nm r q i.
  Proof.
    intros Hi Hq Hdec. destruct (register_cases (m_reg s) (nm q) (info_of q) dec (mi_reg _ _ Hi))
      as [(E & _)|[(_ & id & Hid & _)|(_ & Hni & r & Er & Hr & Eit)]].
    - destruct (nm_nonempty q E).
    - exfalso. unfold names in Hid. rewrite nth_error_map in Hid.
      destruct (nth_error (r_items (m_reg s)) id) as [x|] eqn:Ex; [|discriminate]. injection Hid as Hid.
      destruct (mi_all _ _ Hi id x Ex) as (q' & Hn & Ha). rewrite Hid in Hn. apply nm_inj in Hn. subst q'. congruence.
    - set (k := List.length (r_items (m_reg s))) in *. exists r, k. split; [exact Er|].
      assert (Hk : nth_error (r_items r) k = Some {| tr_name := nm q; tr_info := info_of q;
                 tr_decay := match dec with Some d => d | None => k end |}).
      { rewrite Eit, nth_error_app2 by (unfold k; lia). unfold k. rewrite Nat.sub_diag. reflexivity. }
      assert (Hdesc : describes nm r q k).
      { eexists. split; [exact Hk|]. split; [reflexivity|]. split; [reflexivity|]. cbn [tr_decay].
        destruct dec as [d|].
        - destruct Hdec as [Hnv Ha]. destruct (mi_ids _ _ Hi _ _ Ha) as (i & Ei & x & Hx & Hn & Hin & y & Hy & Hd & Hv & Hdd).
          injection Ei as <-. rewrite full_decay_idem in *. destruct (Hd Hnv) as [Hd1 Hd2].
          exists x. split; [rewrite Eit; apply nth_prefix; exact Hx|]. split; [auto|]. split; [congruence|].
          assert (Hyx : find_name (m_reg s) (nm (full_decay q)) = Some (tr_decay x))
            by (apply find_name_spec; [apply Hi|eauto]).
          assert (Hxx : find_name (m_reg s) (nm (full_decay q)) = Some d)
            by (apply find_name_spec; [apply Hi|eauto]).
          congruence.
        - eexists. split; [exact Hk|]. cbn [tr_name tr_info tr_decay].
          destruct Hdec as [<-|Hv]; [auto|]. split; [congruence|auto]. }
      split; [|exact Hdesc]. split; cbn [m_reg m_ids].
      + exact Hr.
      + intros q' id. rewrite assoc_app. destruct (assoc qeqb q' (m_ids s)) as [id'|] eqn:E.
        * intro H. injection H as <-. destruct (mi_ids _ _ Hi _ _ E) as (i & -> & Hd').
          exists i. split; [reflexivity|]. eapply describes_mono; [exact Eit|exact Hd'].
        * cbn. destruct (qeqb q' q) eqn:Eq; [|discriminate]. apply qeqb_spec in Eq as ->.
          intro H. injection H as <-. eauto.
      + intros i x Hx. rewrite Eit in Hx. destruct (Nat.lt_ge_cases i k) as [Hlt|Hge].
        * rewrite nth_error_app1 in Hx by exact Hlt. destruct (mi_all _ _ Hi _ _ Hx) as (q' & Hn & Ha).
          exists q'. split; [exact Hn|]. rewrite assoc_app, Ha. reflexivity.
        * rewrite nth_error_app2 in Hx by exact Hge. fold k in Hx.
          destruct (i - k) as [|[|j]] eqn:Ej; cbn in Hx; try discriminate. injection Hx as <-.
          exists q. split; [reflexivity|]. rewrite assoc_app, Hq. cbn.
          replace (qeqb q q) with true by (symmetry; apply qeqb_spec; reflexivity).
          f_equal. f_equal. lia.
  Qed.

  Lemma meta_id_ok s q : m_inv nm s ->
    exists s' id, meta_id nm s q = Some (s', id) /\ m_inv nm s' /\
      (is_void q = true -> id = None /\ s' = s) /\
      (is_void q = false -> exists i, id = Some i /\ assoc qeqb q (m_ids s') = Some id /\
                             describes nm (m_reg s') q i) /\
      (forall q' i, assoc qeqb q' (m_ids s) = Some i -> assoc qeqb q' (m_ids s') = Some i) /\
      exists l, r_items (m_reg s') = r_items (m_reg s) ++ l.
  Proof.
    intro Hi.
    assert (Hself : forall fuel s q, m_inv nm s -> q = full_decay q \/ is_void q = true ->
       exists s' id, metaTypeId nm (S fuel) s q = Some (s', id) /\ m_inv nm s' /\
        (is_void q = true -> id = None /\ s' = s) /\
        (is_void q = false -> exists i, id = Some i /\ assoc qeqb q (m_ids s') = Some id /\
                               describes nm (m_reg s') q i) /\
        (forall q' i, assoc qeqb q' (m_ids s) = Some i -> assoc qeqb q' (m_ids s') = Some i) /\
        exists l, r_items (m_reg s') = r_items (m_reg s) ++ l).
    { clear s q Hi. intros fuel s q Hi Hq. cbn [metaTypeId].
      destruct (is_void q) eqn:Ev.
      - exists s, None. split; [reflexivity|]. split; [exact Hi|]. split; [auto|]. split; [discriminate|].
        split; [auto|]. exists []. symmetry; apply app_nil_r.
      - destruct Hq as [Hq|Hq]; [|congruence].
        destruct (assoc qeqb q (m_ids s)) as [id|] eqn:Ea.
        + exists s, id. split; [reflexivity|]. split; [exact Hi|]. split; [discriminate|].
          split. { intros _. destruct (mi_ids _ _ Hi _ _ Ea) as (i & -> & Hd). eauto. }
          split; [auto|]. exists []. symmetry; apply app_nil_r.
        + replace (qeqb q (full_decay q)) with true by (symmetry; apply qeqb_spec; exact Hq).
          destruct (reg_step s q None Hi Ea) as (r & i & Er & Hm & Hd); [left; exact Hq|].
          rewrite Er. eexists _, _. split; [reflexivity|]. split; [exact Hm|]. split; [discriminate|].
          split. { intros _. exists i. split; [reflexivity|]. cbn. split; [|exact Hd].
            rewrite assoc_app, Ea. cbn. replace (qeqb q q) with true by (symmetry; apply qeqb_spec; reflexivity).
            reflexivity. }
          split. { cbn. intros q' j Hj. rewrite assoc_app, Hj. reflexivity. }
          cbn. destruct (register_prefix (m_reg s) (nm q) (info_of q) None (mi_reg _ _ Hi)) as [l El].
          rewrite Er in El. eauto. }
    unfold meta_id. destruct (qty_eq_dec q (full_decay q)) as [Hq|Hq]; [apply Hself; auto|].
    destruct (is_void q) eqn:Ev; [pose proof (Hself 1 s q Hi (or_intror Ev)) as H; rewrite Ev in H; exact H|].
    cbn [metaTypeId]. rewrite Ev.
    destruct (assoc qeqb q (m_ids s)) as [id|] eqn:Ea.
    - exists s, id. split; [reflexivity|]. split; [exact Hi|]. split; [discriminate|].
      split. { intros _. destruct (mi_ids _ _ Hi _ _ Ea) as (i & -> & Hd). eauto. }
      split; [auto|]. exists []. symmetry; apply app_nil_r.
    - replace (qeqb q (full_decay q)) with false
        by (symmetry; apply not_true_iff_false; rewrite qeqb_spec; exact Hq).
      destruct (Hself 0 s (full_decay q) Hi) as (s1 & dec & E1 & Hi1 & Hv1 & Hnv1 & Hmono1 & l1 & El1);
        [left; symmetry; apply full_decay_idem|].
      cbn [metaTypeId] in E1. rewrite E1.
      assert (Ea1 : assoc qeqb q (m_ids s1) = None).
      { destruct (is_void (full_decay q)) eqn:Evd.
        - destruct (Hv1 eq_refl) as [_ ->]. exact Ea.
        - (* only the decayed type was added *)
          clear Hself. revert E1. rewrite full_decay_idem.
          destruct (assoc qeqb (full_decay q) (m_ids s)) as [id|] eqn:Ead.
          + intro H. injection H as <- <-. exact Ea.
          + replace (qeqb (full_decay q) (full_decay q)) with true by (symmetry; apply qeqb_spec; reflexivity).
            destruct (register (m_reg s) (nm (full_decay q)) (info_of (full_decay q)) None) as [r id].
            intro H. injection H as <- <-. cbn. rewrite assoc_app, Ea. cbn.
            destruct (qeqb q (full_decay q)) eqn:E; [|reflexivity]. apply qeqb_spec in E. contradiction. }
      destruct (reg_step s1 q dec Hi1 Ea1) as (r & i & Er & Hm & Hd).
      { destruct (is_void (full_decay q)) eqn:Evd.
        - destruct (Hv1 eq_refl) as [-> _]. right. reflexivity.
        - destruct (Hnv1 eq_refl) as (i & -> & Hai & _). split; [reflexivity|exact Hai]. }
      rewrite Er. eexists _, _. split; [reflexivity|]. split; [exact Hm|]. split; [discriminate|].
      split. { intros _. exists i. split; [reflexivity|]. cbn. split; [|exact Hd].
        rewrite assoc_app, Ea1. cbn. replace (qeqb q q) with true by (symmetry; apply qeqb_spec; reflexivity).
        reflexivity. }
      split. { cbn. intros q' j Hj. rewrite assoc_app, (Hmono1 _ _ Hj). reflexivity. }
      cbn. destruct (register_prefix (m_reg s1) (nm q) (info_of q) dec (mi_reg _ _ Hi1)) as [l El].
      rewrite Er in El. cbn in El. rewrite El, El1, <- app_assoc. eauto.
  Qed.

  Lemma mrun_ok h s : m_inv nm s -> exists s', mrun nm s h = Some s' /\ m_inv nm s' /\
     (forall q' i, assoc qeqb q' (m_ids s) = Some i -> assoc qeqb q' (m_ids s') = Some i) /\
     exists l, r_items (m_reg s') = r_items (m_reg s) ++ l.
  Proof.
    revert s. induction h as [|q h IH]; intros s Hi; cbn [mrun].
    - exists s. split; [reflexivity|]. split; [exact Hi|]. split; [auto|]. exists []. symmetry; apply app_nil_r.
    - destruct (meta_id_ok s q Hi) as (s1 & id & -> & Hi1 & _ & _ & Hm1 & l1 & El1).
      destruct (IH s1 Hi1) as (s2 & -> & Hi2 & Hm2 & l2 & El2). exists s2. split; [reflexivity|].
      split; [exact Hi2|]. split; [auto|]. rewrite El2, El1, <- app_assoc. eauto.
  Qed.

  (** The statement of C05. *)
  Lemma decay_registered h s q s' id : mrun nm m0 h = Some s -> is_void q = false ->
    is_void (full_decay q) = false -> meta_id nm s q = Some (s', id) ->
    exists i d x, id = Some i /\ lookup_id (m_reg s') id = DOk x /\ tr_name x = nm q /\ tr_info x = info_of q /\
      decayId (m_reg s') id = DOk d /\
      meta_id nm s' (full_decay q) = Some (s', Some d) /\
      (exists y, lookup_id (m_reg s') (Some d) = DOk y /\ tr_name y = nm (full_decay q) /\
                 tr_info y = info_of (full_decay q)) /\
      decayId (m_reg s') (Some d) = DOk d.
  Proof.
    intros Hh Hv Hvd Hq. destruct (mrun_ok h m0 m0_inv) as (s0 & E0 & Hi & _). rewrite Hh in E0. injection E0 as <-.
    destruct (meta_id_ok s q Hi) as (s1 & id1 & E1 & Hi1 & _ & Hd & _ & _). rewrite Hq in E1. injection E1 as <- <-.
    destruct (Hd Hv) as (i & -> & Ha & x & Hx & Hn & Hinfo & y & Hy & Hyd & _ & Hdd).
    destruct (Hyd Hvd) as [Hyn Hyi].
    exists i, (tr_decay x), x. assert (Hl := ri_live _ (mi_reg _ _ Hi1)).
    unfold decayId, lookup_id. rewrite Hl, Hx, Hy, Hdd. repeat (split; [auto; fail|]).
    split; [|split; [eauto|reflexivity]].
    destruct (mi_all _ _ Hi1 _ _ Hy) as (q' & Hnq & Haq). rewrite Hyn in Hnq. apply nm_inj in Hnq. subst q'.
    unfold meta_id. cbn [metaTypeId]. rewrite Hvd, Haq. reflexivity.
  Qed.

  (** Distinct types have distinct identifiers, one type keeps its identifier. *)
  Lemma ids_distinct h s q1 q2 s1 s2 i : mrun nm m0 h = Some s ->
    meta_id nm s q1 = Some (s1, Some i) -> meta_id nm s1 q2 = Some (s2, Some i) -> q1 = q2.
  Proof.
    intros Hh H1 H2. destruct (mrun_ok h m0 m0_inv) as (s0 & E0 & Hi & _). rewrite Hh in E0. injection E0 as <-.
    destruct (meta_id_ok s q1 Hi) as (s1' & id1 & E1 & Hi1 & Hv1 & Hd1 & _ & _). rewrite H1 in E1. injection E1 as <- <-.
    destruct (meta_id_ok s1 q2 Hi1) as (s2' & id2 & E2 & Hi2 & Hv2 & Hd2 & _ & l & El). rewrite H2 in E2. injection E2 as <- <-.
    destruct (is_void q1); [destruct (Hv1 eq_refl); discriminate|].
    destruct (is_void q2); [destruct (Hv2 eq_refl); discriminate|].
    destruct (Hd1 eq_refl) as (i1 & Ei1 & _ & x & Hx & Hn & _). injection Ei1 as <-.
    destruct (Hd2 eq_refl) as (i2 & Ei2 & _ & y & Hy & Hny & _). injection Ei2 as <-.
    rewrite El in Hy. rewrite (nth_prefix _ _ _ _ Hx) in Hy. injection Hy as <-.
    apply nm_inj. congruence.
  Qed.

  Lemma ids_stable h s h' s' q i s1 : mrun nm m0 h = Some s -> meta_id nm s q = Some (s1, i) ->
    mrun nm s1 h' = Some s' -> meta_id nm s' q = Some (s', i).
  Proof.
    intros Hh H1 H2. destruct (mrun_ok h m0 m0_inv) as (s0 & E0 & Hi & _). rewrite Hh in E0. injection E0 as <-.
    destruct (meta_id_ok s q Hi) as (s1' & id1 & E1 & Hi1 & Hv1 & Hd1 & _ & _). rewrite H1 in E1. injection E1 as <- <-.
    destruct (mrun_ok h' s1 Hi1) as (s2 & E2 & Hi2 & Hm & _). rewrite H2 in E2. injection E2 as <-.
    unfold meta_id. cbn [metaTypeId]. destruct (is_void q).
    - destruct (Hv1 eq_refl) as [-> _]. reflexivity.
    - destruct (Hd1 eq_refl) as (j & -> & Ha & _). rewrite (Hm _ _ Ha). reflexivity.
  Qed.
End MetaTypeId.

(** ** Converters *)

(** Specification: the current converter of a pair of decayed types, from the history alone (most recent
    operation first). *)
Fixpoint current (dec : nat -> nat) (h : list cop) (k : nat * nat) : option functor :=
  match h with
  | [] => None
  | CReg (Some f) (Some t) fn :: h' =>
      match current dec h' k with
      | Some g => Some g
      | None => if keyb k (dec f, dec t) then Some fn else None
      end
  | CUnreg (Some f) (Some t) :: h' => if keyb k (dec f, dec t) then None else current dec h' k
  | _ :: h' => current dec h' k
  end.

(** Every registration for one pair with one functor type passes one functor value. *)
Definition one_value (dec : nat -> nat) (h : list cop) : Prop :=
  forall f t f' t' a b, In (CReg (Some f) (Some t) a) h -> In (CReg (Some f') (Some t') b) h ->
    (dec f, dec t) = (dec f', dec t') -> f_type a = f_type b -> a = b.

Lemma keyb_spec a b : keyb a b = true <-> a = b.
Proof.
  unfold keyb. destruct a as [a1 a2], b as [b1 b2]; cbn. rewrite andb_true_iff, !Nat.eqb_eq.
  split; [intros [-> ->]; reflexivity|]. intro H; injection H as -> ->; auto.
Qed.

Lemma key3b_spec a b : key3b a b = true <-> a = b.
Proof.
  unfold key3b. destruct a as [a1 a2], b as [b1 b2]; cbn. rewrite andb_true_iff, keyb_spec, Nat.eqb_eq.
  split; [intros [-> ->]; reflexivity|]. intro H; injection H as -> ->; auto.
Qed.

Lemma crun_snoc dec c h o : crun dec c (h ++ [o]) = cstep dec (crun dec c h) o.
Proof. unfold crun. rewrite fold_left_app. reflexivity. Qed.

Lemma register_converter_items dec c f t fn :
  let k := (dec f, dec t) in
  let obj := match assoc key3b (k, f_type fn) (cv_static c) with Some o => o | None => fn end in
  cv_items (fst (registerConverter dec c (Some f) (Some t) fn)) =
    (match assoc keyb k (cv_items c) with Some _ => cv_items c | None => cv_items c ++ [(k, obj)] end) /\
  snd (registerConverter dec c (Some f) (Some t) fn) =
    (match assoc keyb k (cv_items c) with Some _ => false | None => true end).
Proof.
  cbn zeta. unfold registerConverter.
  destruct (assoc key3b _ (cv_static c)), (assoc keyb _ (cv_items c)); auto.
Qed.

Lemma crun_static dec h fs k ft o : In (k, ft, o) (cv_static (crun dec conv0 h)) -> fs = ft ->
  exists f t, In (CReg (Some f) (Some t) o) h /\ (dec f, dec t) = k /\ f_type o = ft.
Proof.
  revert k ft o fs. induction h as [|op h IH] using rev_ind; intros k ft o fs; cbn; [tauto|].
  rewrite crun_snoc. destruct op as [[f|] [t|] fn|[f|] [t|]]; cbn [cstep registerConverter unregisterConverter fst cv_static];
    try (intros Hin Hfs; destruct (IH k ft o fs Hin Hfs) as (f0 & t0 & Hi & Hk & Hft);
         exists f0, t0; split; [apply in_or_app; left; exact Hi|auto]; fail).
  intros Hin Hfs.
  assert (Hcase : In (k, ft, o) (cv_static (crun dec conv0 h)) \/ (k, ft, o) = ((dec f, dec t), f_type fn, fn)).
  { destruct (assoc key3b _ (cv_static _)); destruct (assoc keyb _ (cv_items _)); cbn in Hin;
      rewrite ?in_app_iff in Hin; cbn in Hin; intuition. }
  destruct Hcase as [Hin'|E].
  - destruct (IH k ft o fs Hin' Hfs) as (f0 & t0 & Hi & Hk & Hft).
    exists f0, t0. split; [apply in_or_app; left; exact Hi|auto].
  - injection E as -> -> ->. exists f, t. split; [apply in_or_app; right; left; reflexivity|auto].
Qed.

Lemma assoc_In {K V} (eqb : K -> K -> bool) (Heq : forall a b, eqb a b = true <-> a = b) k (l : list (K * V)) v :
  assoc eqb k l = Some v -> In (k, v) l.
Proof.
  induction l as [|[k' v'] l IH]; cbn; [discriminate|]. destruct (eqb k k') eqn:E.
  - intro H; injection H as ->. apply Heq in E as ->. auto.
  - auto.
Qed.

Lemma one_value_app dec h o : one_value dec (h ++ [o]) -> one_value dec h.
Proof. intros H f t f' t' a b Ha Hb. apply (H f t f' t' a b); apply in_or_app; auto. Qed.

Lemma crun_current dec h k : one_value dec h ->
  assoc keyb k (cv_items (crun dec conv0 h)) = current dec (rev h) k.
Proof.
  induction h as [|op h IH] using rev_ind; intro Hone; [reflexivity|].
  specialize (IH (one_value_app _ _ _ Hone)).
  rewrite crun_snoc, rev_app_distr. cbn [rev app].
  destruct op as [[f|] [t|] fn|[f|] [t|]]; try exact IH.
  - cbn [current cstep].
    destruct (register_converter_items dec (crun dec conv0 h) f t fn) as [-> _].
    destruct (assoc keyb (dec f, dec t) (cv_items (crun dec conv0 h))) as [g|] eqn:Eg.
    + rewrite IH. destruct (current dec (rev h) k) as [g'|] eqn:Eg'; [reflexivity|].
      destruct (keyb k (dec f, dec t)) eqn:Ek; [|reflexivity].
      apply keyb_spec in Ek; subst k. rewrite IH in Eg. congruence.
    + rewrite assoc_app, IH. destruct (current dec (rev h) k) as [g'|] eqn:Eg'; [reflexivity|].
      cbn. destruct (keyb k (dec f, dec t)) eqn:Ek; [|reflexivity].
      destruct (assoc key3b (dec f, dec t, f_type fn) (cv_static (crun dec conv0 h))) as [o|] eqn:Eo; [|reflexivity].
      apply (assoc_In _ key3b_spec) in Eo.
      destruct (crun_static dec h _ _ _ _ Eo eq_refl) as (f0 & t0 & Hi & Hk & Hft).
      f_equal. apply (Hone f0 t0 f t o fn); [apply in_or_app; left; exact Hi|
        apply in_or_app; right; left; reflexivity|exact Hk|exact Hft].
  - cbn [current cstep unregisterConverter cv_items].
    rewrite (assoc_erase keyb keyb_spec). rewrite IH.
    destruct (keyb (dec f, dec t) k) eqn:E1, (keyb k (dec f, dec t)) eqn:E2; try reflexivity;
      exfalso.
    + apply keyb_spec in E1; subst k. assert (keyb (dec f, dec t) (dec f, dec t) = true) by (apply keyb_spec; reflexivity). congruence.
    + apply keyb_spec in E2; subst k. assert (keyb (dec f, dec t) (dec f, dec t) = true) by (apply keyb_spec; reflexivity). congruence.
Qed.

Lemma converters_refine dec h f t fn : one_value dec h ->
  let c := crun dec conv0 h in
  converter_for dec c (Some f) (Some t) = current dec (rev h) (dec f, dec t) /\
  (hasConverter dec c (Some f) (Some t) = true <-> exists g, current dec (rev h) (dec f, dec t) = Some g) /\
  (snd (registerConverter dec c (Some f) (Some t) fn) = true <-> current dec (rev h) (dec f, dec t) = None) /\
  (snd (registerConverter dec c (Some f) (Some t) fn) = false ->
     cv_items (fst (registerConverter dec c (Some f) (Some t) fn)) = cv_items c).
Proof.
  intros Hone c. assert (E := crun_current dec h (dec f, dec t) Hone). fold c in E.
  destruct (register_converter_items dec c f t fn) as [E1 E2]. rewrite E1, E2.
  unfold converter_for, hasConverter. rewrite E. split; [reflexivity|].
  destruct (current dec (rev h) (dec f, dec t)) as [g|].
  - split; [split; eauto|]. split; [split; discriminate|auto].
  - split; [split; [discriminate|intros [? H]; discriminate]|]. split; [tauto|discriminate].
Qed.

(** Whatever the history, the pairs that have a converter are the expected ones. *)
Lemma crun_domain dec h k :
  (exists g, assoc keyb k (cv_items (crun dec conv0 h)) = Some g) <-> (exists g, current dec (rev h) k = Some g).
Proof.
  induction h as [|op h IH] using rev_ind; [cbn; tauto|].
  rewrite crun_snoc, rev_app_distr. cbn [rev app].
  destruct op as [[f|] [t|] fn|[f|] [t|]]; try exact IH.
  - cbn [current cstep].
    destruct (register_converter_items dec (crun dec conv0 h) f t fn) as [-> _].
    destruct (assoc keyb (dec f, dec t) (cv_items (crun dec conv0 h))) as [g|] eqn:Eg.
    + rewrite IH. split.
      * intros [g' ->]. eauto.
      * intros [g' Hg']. destruct (current dec (rev h) k) as [g2|] eqn:E2; [eauto|].
        destruct (keyb k (dec f, dec t)) eqn:Ek; [|discriminate]. apply keyb_spec in Ek; subst k.
        apply IH. eauto.
    + rewrite assoc_app. destruct (assoc keyb k (cv_items (crun dec conv0 h))) as [g|] eqn:Ek.
      * destruct IH as [IH _]. destruct IH as [g' Hg']; [eauto|]. rewrite Hg'. split; eauto.
      * destruct (current dec (rev h) k) as [g'|] eqn:Eg'.
        -- destruct IH as [_ IH]. destruct IH as [? H]; [eauto|discriminate].
        -- cbn. destruct (keyb k (dec f, dec t)); split; intros [? H]; eauto; discriminate.
  - cbn [current cstep unregisterConverter cv_items].
    rewrite (assoc_erase keyb keyb_spec).
    destruct (keyb (dec f, dec t) k) eqn:E1, (keyb k (dec f, dec t)) eqn:E2; try exact IH;
      try (split; intros [? H]; discriminate); exfalso.
    + apply keyb_spec in E1; subst k. assert (keyb (dec f, dec t) (dec f, dec t) = true) by (apply keyb_spec; reflexivity). congruence.
    + apply keyb_spec in E2; subst k. assert (keyb (dec f, dec t) (dec f, dec t) = true) by (apply keyb_spec; reflexivity). congruence.
Qed.
