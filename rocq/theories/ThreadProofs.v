(** Lemmas for C45 and C46. *)
From Coq Require Import List Bool Arith Lia String.
From Verif Require Import Util TypesModel TypesProofs RegistryModel RegistryProofs DeferModel DeferProofs ThreadModel ThreadSpec.
Import ListNotations.

Notation at_ := ThreadModel.at_.
Notation todo := ThreadModel.todo.
Notation step := ThreadModel.step.
Notation turn := ThreadModel.turn.
Notation exec := ThreadModel.exec.
Notation Enter := ThreadModel.Enter.
Notation thread := ThreadModel.thread.
Notation Thread := ThreadModel.Thread.

Lemma mrun_app nm h h' s : mrun nm s (h ++ h') = match mrun nm s h with Some s' => mrun nm s' h' | None => None end.
Proof. revert s. induction h as [|q h IH]; intro s; cbn [mrun app]; [reflexivity|]. destruct (meta_id nm s q) as [[s' i]|]; auto. Qed.

Lemma assoc_cons {V} q q' (v : V) l : assoc qeqb q ((q', v) :: l) = if qeqb q q' then Some v else assoc qeqb q l.
Proof. reflexivity. Qed.

Lemma qeqb_refl q : qeqb q q = true.
Proof. apply qeqb_spec. reflexivity. Qed.

Lemma flat_map_put {A B} (f : A -> list B) ts i t t' : nth_error ts i = Some t ->
  exists l r, flat_map f ts = l ++ f t ++ r /\ flat_map f (put ts i t') = l ++ f t' ++ r.
Proof.
  revert i. induction ts as [|x ts IH]; intros [|i] H; cbn in H; try discriminate.
  - injection H as ->. exists [], (flat_map f ts). auto.
  - destruct (IH i H) as (l & r & E1 & E2). exists (f x ++ l), r. cbn. rewrite E1, E2, !app_assoc. auto.
Qed.

(** ** The invariant *)
Section Inv.
  Variable nm : qty -> string.

  Definition dec_ok (s : mstate) (q : qty) (dec : tid) : Prop :=
    if qeqb q (full_decay q) then dec = None
    else if is_void (full_decay q) then dec = None
    else assoc qeqb (full_decay q) (m_ids s) = Some dec.

  (** The innermost frame works on [q]. *)
  Definition top_ok (s : mstate) (f : frame) (q : qty) : Prop :=
    match f with
    | Enter q' => q' = q
    | Registering q' dec => q' = q /\ is_void q = false /\ assoc qeqb q (m_ids s) = None /\ dec_ok s q dec
    | Publish q' id => q' = q /\ is_void q = false /\ assoc qeqb q (m_ids s) = Some id
    | Decayed _ => False
    end.

  Definition stack_ok (s : mstate) (q : qty) (l : list frame) : Prop :=
    match l with
    | [f] => top_ok s f q
    | [f; Decayed q'] => q' = q /\ is_void q = false /\ q <> full_decay q /\ assoc qeqb q (m_ids s) = None /\
                         top_ok s f (full_decay q)
    | _ => False
    end.

  Definition place_ok (s : mstate) (p : place) : Prop :=
    match p with Idle => True | Working q l => stack_ok s q l end.

  (** The statics a thread is initialising. *)
  Definition owns (f : frame) : list qty :=
    match f with Enter _ => [] | Decayed q | Registering q _ | Publish q _ => [q] end.

  Definition owned (t : thread) : list qty :=
    match at_ t with Idle => [] | Working _ l => flat_map owns l end.

  (** The static of [q] is being initialised by a thread that has not registered it yet. *)
  Definition answer_ok (h : list qty) (s : mstate) (e : request * tid) : Prop :=
    match fst e with
    | Id q => if is_void q then snd e = None else assoc qeqb q (m_ids s) = Some (snd e)
    | Name n => exists h1 h2 s1, h = h1 ++ h2 /\ mrun nm m0 h1 = Some s1 /\ find_name (m_reg s1) n = snd e
    end.

  Definition current (p : place) : list request := match p with Idle => [] | Working q _ => [Id q] end.
  Definition history (t : thread) : list request := map fst (got t) ++ current (at_ t) ++ todo t.

  Record good (ps : list (list request)) (h : list qty) (s : mstate) (c : memory * list thread) : Prop := {
    g_seq : mrun nm m0 h = Some s;
    g_reg : reg (fst c) = m_reg s;
    g_none : forall q, assoc qeqb q (guards (fst c)) = None -> assoc qeqb q (m_ids s) = None;
    g_ready : forall q id, assoc qeqb q (guards (fst c)) = Some (Ready id) -> assoc qeqb q (m_ids s) = Some id;
    g_running : forall q, assoc qeqb q (guards (fst c)) = Some Running <-> In q (flat_map owned (snd c));
    g_nodup : NoDup (flat_map owned (snd c));
    g_place : forall i t, nth_error (snd c) i = Some t -> place_ok s (at_ t);
    g_answer : forall i t, nth_error (snd c) i = Some t -> Forall (answer_ok h s) (got t);
    g_history : forall i t, nth_error (snd c) i = Some t -> nth_error ps i = Some (history t);
    g_length : List.length (snd c) = List.length ps
  }.

  Lemma good_start ps : good ps [] m0 (start ps).
  Proof.
    assert (E : flat_map owned (map (fun l => Thread Idle l []) ps) = []).
    { induction ps as [|l ps IH]; [reflexivity|]. exact IH. }
    split; cbn [start fst snd reg guards]; auto; try discriminate.
    - intro q. rewrite E. cbn. split; [discriminate|tauto].
    - rewrite E. constructor.
    - intros i t H. rewrite nth_error_map in H. destruct (nth_error ps i); [|discriminate]. injection H as <-. exact I.
    - intros i t H. rewrite nth_error_map in H. destruct (nth_error ps i); [|discriminate]. injection H as <-. constructor.
    - intros i t H. rewrite nth_error_map in H. destruct (nth_error ps i); [|discriminate]. injection H as <-. reflexivity.
    - apply map_length.
  Qed.

  (** Facts about the others survive when the sequential history grows by one new type. *)
  Definition grown (s s' : mstate) (q : qty) (id : tid) : Prop := m_ids s' = m_ids s ++ [(q, id)].

  Lemma grown_assoc s s' q id q' : grown s s' q id -> q' <> q -> assoc qeqb q' (m_ids s') = assoc qeqb q' (m_ids s).
  Proof.
    intros E N. rewrite E, assoc_app. destruct (assoc qeqb q' (m_ids s)); [reflexivity|]. cbn.
    destruct (qeqb q' q) eqn:X; [apply qeqb_spec in X; contradiction|reflexivity].
  Qed.

  Lemma grown_new s s' q id : grown s s' q id -> assoc qeqb q (m_ids s) = None -> assoc qeqb q (m_ids s') = Some id.
  Proof. intros E N. rewrite E, assoc_app, N. cbn. rewrite qeqb_refl. reflexivity. Qed.

  Lemma grown_some s s' q id q' x : grown s s' q id -> assoc qeqb q' (m_ids s) = Some x -> assoc qeqb q' (m_ids s') = Some x.
  Proof. intros E H. rewrite E, assoc_app, H. reflexivity. Qed.

  Lemma dec_grown s s' q id q' dec : grown s s' q id -> dec_ok s q' dec -> dec_ok s' q' dec.
  Proof.
    intros E. unfold dec_ok. destruct (qeqb q' (full_decay q')); auto. destruct (is_void (full_decay q')); auto.
    apply grown_some with (1 := E).
  Qed.

  Lemma top_grown s s' q id f q' : grown s s' q id -> ~ In q (owns f) \/ (exists i, f = Publish q i) ->
    top_ok s f q' -> top_ok s' f q'.
  Proof.
    intros E H. destruct f; cbn in *; auto.
    - intros (-> & H1 & H2 & H3). repeat split; auto; [|eapply dec_grown; eassumption].
      rewrite (grown_assoc s s' q id q' E); auto. destruct H as [H|[i H]]; [intuition|discriminate].
    - intros (-> & H1 & H2). repeat split; auto. eapply grown_some; eassumption.
  Qed.

  Lemma stack_grown s s' q id q' l : grown s s' q id -> ~ In q (flat_map owns l) -> stack_ok s q' l -> stack_ok s' q' l.
  Proof.
    intros E H. unfold stack_ok. destruct l as [|f [|g [|x l]]]; auto.
    - apply top_grown with (1 := E). left. cbn in H. rewrite app_nil_r in H. exact H.
    - destruct g; auto. intros (-> & H1 & H2 & H3 & H4). cbn in H. rewrite in_app_iff in H. cbn in H.
      repeat split; auto.
      + rewrite (grown_assoc s s' q id q' E); auto; intuition congruence.
      + eapply top_grown; [exact E| |exact H4]. left. intuition.
  Qed.

  Lemma answer_grown h s s' q id e : grown s s' q id -> answer_ok h s e -> answer_ok (h ++ [q]) s' e.
  Proof.
    intros E. unfold answer_ok. destruct (fst e) as [q'|n].
    - destruct (is_void q'); auto. apply grown_some with (1 := E).
    - intros (h1 & h2 & s1 & -> & H1 & H2). exists h1, (h2 ++ [q]), s1. rewrite app_assoc. auto.
  Qed.

  (** The sequential metaTypeId does what the registering thread does. *)
  Lemma sequential s q dec : is_void q = false -> assoc qeqb q (m_ids s) = None -> dec_ok s q dec ->
    let (r, id) := register (m_reg s) (nm q) (info_of q) dec in
    meta_id nm s q = Some ({| m_reg := r; m_ids := m_ids s ++ [(q, id)] |}, id).
  Proof.
    intros Hv Hn Hd. unfold meta_id. cbn [metaTypeId]. rewrite Hv, Hn. unfold dec_ok in Hd.
    destruct (qeqb q (full_decay q)).
    - subst dec. destruct (register (m_reg s) (nm q) (info_of q) None); reflexivity.
    - destruct (is_void (full_decay q)).
      + subst dec. destruct (register (m_reg s) (nm q) (info_of q) None); reflexivity.
      + rewrite Hd. destruct (register (m_reg s) (nm q) (info_of q) dec); reflexivity.
  Qed.

  Lemma exclusive ts i t j u q : NoDup (flat_map owned ts) -> nth_error ts i = Some t -> In q (owned t) ->
    j <> i -> nth_error ts j = Some u -> ~ In q (owned u).
  Proof.
    revert i j. induction ts as [|x ts IH]; intros i j ND Hi Hq N Hj; [destruct i; discriminate|].
    cbn in ND. assert (Hin : forall k v, nth_error ts k = Some v -> In q (owned v) -> In q (flat_map owned ts)).
    { intros k v Hk Hv. apply in_flat_map. exists v. split; [eapply nth_error_In; exact Hk|exact Hv]. }
    assert (Hdis : In q (owned x) -> In q (flat_map owned ts) -> False).
    { intros H1 H2. apply in_split in H1. destruct H1 as (a & b & E). rewrite E, <- app_assoc in ND.
      cbn in ND. apply NoDup_remove_2 in ND. apply ND. rewrite !in_app_iff. auto. }
    destruct i as [|i], j as [|j]; cbn in Hi, Hj; try congruence.
    - injection Hi as ->. intro Hu. eapply Hdis; eauto.
    - injection Hj as ->. intro Hu. eapply Hdis; eauto.
    - eapply IH; [|exact Hi|exact Hq| |exact Hj]; [|congruence].
      clear - ND. induction (owned x) as [|a l IHl]; [exact ND|]. inversion ND. auto.
  Qed.

  Lemma give_owned t q below id : owned (give t q below id) = match below with Decayed q' :: rest => q' :: flat_map owns rest | _ => [] end.
  Proof. unfold give. destruct below as [|[] below]; reflexivity. Qed.

  (** One step keeps the invariant. *)
  Lemma good_step ps h s m ts i t : good ps h s (m, ts) -> nth_error ts i = Some t ->
    exists h' s', good ps (h ++ h') s' (fst (step nm m t), put ts i (snd (step nm m t))).
  Proof.
    intros G Hi.
    assert (Hlt : i < List.length ts) by (apply nth_error_Some; congruence).
    pose proof (g_place _ _ _ _ G i t Hi) as HP. pose proof (g_answer _ _ _ _ G i t Hi) as HA.
    pose proof (g_history _ _ _ _ G i t Hi) as HH. cbn [fst snd] in *.
    (* steps that change no shared memory and no ownership *)
    assert (Quiet : forall t', owned t' = owned t -> place_ok s (at_ t') -> Forall (answer_ok h s) (got t') ->
              history t' = history t -> exists h' s', good ps (h ++ h') s' (m, put ts i t')).
    { intros t' H1 H2 H3 H4. exists [], s. rewrite app_nil_r.
      destruct (flat_map_put owned ts i t t' Hi) as (l & r & E1 & E2). rewrite H1, <- E1 in E2.
      destruct G as [G1 G2 G3 G4 G5 G6 G7 G8 G9 G10]. cbn [fst snd] in *.
      split; cbn [fst snd]; auto; try (rewrite E2; auto; fail); try (intros j u Hj; apply put_nth in Hj; destruct Hj as [[-> ->]|[_ Hj]]; eauto; fail).
      - intros j u Hj. apply put_nth in Hj. destruct Hj as [[<- ->]|[_ Hj]]; [rewrite HH, H4; reflexivity|eauto].
      - rewrite put_length. exact G10. }
    assert (Hgive : forall q0 below id f, at_ t = Working q0 (f :: below) -> owns f = [] -> 
              stack_ok s q0 (f :: below) ->
              (exists q, top_ok s f q /\ (if is_void q then id = None else assoc qeqb q (m_ids s) = Some id) /\
                match below with [] => q = q0 | _ => q = full_decay q0 end) ->
              exists h' s', good ps (h ++ h') s' (m, put ts i (give t q0 below id))).
    { intros q0 below id f Ea Ho HS (q & Hq & Hid & Hb). apply Quiet.
      - rewrite give_owned. unfold owned. rewrite Ea. cbn. rewrite Ho. cbn. 
        destruct below as [|[] [|]]; cbn in HS |- *; try tauto; try (destruct HS; fail).
      - destruct below as [|[] [|]]; cbn in HS |- *; try tauto; try (destruct HS; fail).
        destruct HS as (-> & H1 & H2 & H3 & H4). repeat split; auto. unfold dec_ok.
        destruct (qeqb q0 (full_decay q0)) eqn:X; [apply qeqb_spec in X; contradiction|]. subst q.
        destruct (is_void (full_decay q0)); exact Hid.
      - destruct below as [|[] [|]]; cbn in HS |- *; try tauto; try (destruct HS; fail).
        subst q. apply Forall_app. split; [exact HA|]. constructor; [exact Hid|constructor].
      - unfold history. rewrite Ea. destruct below as [|[] [|]]; cbn in HS |- *; try tauto; try (destruct HS; fail).
        rewrite map_app, <- app_assoc. reflexivity. }
    unfold step. destruct (at_ t) as [|q0 stack] eqn:Ea.
    - destruct (todo t) as [|[q|n] rest] eqn:Et; cbn [fst snd].
      + apply Quiet; try rewrite Ea; auto.
      + apply Quiet; cbn; auto. unfold owned. rewrite Ea. reflexivity.
        unfold history. cbn. rewrite Ea, Et. reflexivity.
      + apply Quiet; cbn; auto.
        * unfold owned. rewrite Ea. reflexivity.
        * apply Forall_app. split; [exact HA|]. constructor; [|constructor]. exists h, [], s. rewrite app_nil_r.
          destruct G. cbn in *. repeat split; auto. congruence.
        * unfold history. cbn. rewrite Ea, Et, map_app, <- app_assoc. reflexivity.
    - cbn in HP. assert (HP' := HP). unfold stack_ok in HP. destruct stack as [|f below]; [destruct HP|].
      assert (Hshape : exists q, top_ok s f q /\ match below with [] => q = q0 | _ => q = full_decay q0 end).
      { destruct below as [|g [|]]; [exists q0; auto| |destruct g; destruct HP].
        destruct g; try (destruct HP; fail). exists (full_decay q0). intuition. }
      destruct Hshape as (q & Htop & Hwhich). destruct f as [q'|q'|q' dec|q' id]; cbn in Htop.
      + (* Enter *)
        subst q'. destruct (is_void q) eqn:Ev; [|destruct (assoc qeqb q (guards m)) as [[|id]|] eqn:Eg]; cbn [fst snd].
        * eapply Hgive; [reflexivity|reflexivity|exact HP'|]. exists q. rewrite Ev. cbn. auto.
        * apply Quiet; try rewrite Ea; auto.
        * eapply Hgive; [reflexivity|reflexivity|exact HP'|]. exists q. rewrite Ev. cbn. repeat split; auto.
          apply (g_ready _ _ _ _ G). exact Eg.
        * (* becomes the initialising thread *)
          set (t' := Thread _ _ _). assert (Ho : owned t' = q :: owned t).
          { unfold owned, t'. rewrite Ea. cbn. destruct (qeqb q (full_decay q)); reflexivity. }
          exists [], s. rewrite app_nil_r. destruct (flat_map_put owned ts i t t' Hi) as (l & r & E1 & E2).
          assert (Hnone : assoc qeqb q (m_ids s) = None) by (apply (g_none _ _ _ _ G); exact Eg).
          assert (Hfresh : ~ In q (flat_map owned ts)).
          { intro X. apply (g_running _ _ _ _ G) in X. cbn in X. congruence. }
          destruct G as [G1 G2 G3 G4 G5 G6 G7 G8 G9 G10]. cbn [fst snd] in *.
          split; cbn [fst snd reg guards]; auto.
          -- intros q1. rewrite assoc_cons. destruct (qeqb q1 q); [discriminate|auto].
          -- intros q1 id. rewrite assoc_cons. destruct (qeqb q1 q); [discriminate|auto].
          -- intros q1. rewrite assoc_cons, E2, Ho. specialize (G5 q1). rewrite E1 in G5.
             destruct (qeqb q1 q) eqn:X.
             ++ apply qeqb_spec in X. subst q1. split; [|reflexivity]. intros _. rewrite !in_app_iff. cbn. auto.
             ++ rewrite G5, !in_app_iff. cbn. assert (q <> q1) by (intros ->; rewrite qeqb_refl in X; discriminate). tauto.
          -- rewrite E2, Ho. apply NoDup_Add with (a := q) (l := l ++ owned t ++ r).
             ++ apply Add_app.
             ++ rewrite <- E1. auto.
          -- intros j u Hj. apply put_nth in Hj. destruct Hj as [[<- ->]|[_ Hj]]; [|eauto]. cbn.
             destruct (qeqb q (full_decay q)) eqn:X.
             ++ assert (T : top_ok s (Registering q None) q). { cbn. repeat split; auto. unfold dec_ok. rewrite X. reflexivity. }
                destruct below as [|g [|]]; [subst q0; exact T| |destruct g; destruct HP'].
                destruct g; try (destruct HP'; fail). destruct HP' as (-> & P1 & P2 & P3 & P4). subst q.
                repeat split; auto. all: apply T.
             ++ destruct below as [|g [|]].
                ** subst q0. repeat split; auto. intro Y. rewrite <- Y in X. rewrite qeqb_refl in X. discriminate.
                ** exfalso. subst q. rewrite full_decay_idem, qeqb_refl in X. discriminate.
                ** destruct g; destruct HP'.
          -- intros j u Hj. apply put_nth in Hj. destruct Hj as [[<- ->]|[_ Hj]]; eauto.
          -- intros j u Hj. apply put_nth in Hj. destruct Hj as [[<- ->]|[_ Hj]]; [|eauto].
             rewrite HH. unfold history. rewrite Ea. reflexivity.
          -- rewrite put_length. exact G10.
      + destruct Htop.
      + (* Registering *)
        destruct Htop as (-> & Hv & Hnone & Hdec).
        pose proof (sequential s q dec Hv Hnone Hdec) as Hseq.
        rewrite (g_reg _ _ _ _ G : reg m = m_reg s).
        destruct (register (m_reg s) (nm q) (info_of q) dec) as [r id]. cbn [fst snd].
        set (s' := {| m_reg := r; m_ids := m_ids s ++ [(q, id)] |}) in *.
        assert (Gr : grown s s' q id) by reflexivity.
        set (t' := Thread _ _ _). assert (Ho : owned t' = owned t) by (unfold owned, t'; rewrite Ea; reflexivity).
        exists [q], s'. destruct (flat_map_put owned ts i t t' Hi) as (l & r' & E1 & E2).
        rewrite Ho, <- E1 in E2.
        assert (Hin : In q (owned t)) by (unfold owned; rewrite Ea; cbn; auto).
        assert (Hother : forall j u, j <> i -> nth_error ts j = Some u -> ~ In q (owned u)).
        { intros j u N Hj. eapply exclusive; [exact (g_nodup _ _ _ _ G)|exact Hi|exact Hin|exact N|exact Hj]. }
        destruct G as [G1 G2 G3 G4 G5 G6 G7 G8 G9 G10]. cbn [fst snd] in *.
        assert (Hrun : assoc qeqb q (guards m) = Some Running).
        { apply G5. rewrite E1, !in_app_iff. auto. }
        split; cbn [fst snd reg guards]; auto.
        * rewrite mrun_app, G1. cbn [mrun]. rewrite Hseq. reflexivity.
        * intros q1 H1. rewrite (grown_assoc s s' q id q1 Gr); [auto|congruence].
        * intros q1 id1 H1. eapply grown_some; [exact Gr|auto].
        * intro q1. rewrite E2. apply G5.
        * rewrite E2. exact G6.
        * intros j u Hj. apply put_nth in Hj. destruct Hj as [[<- ->]|[N Hj]].
          -- cbn. assert (T : top_ok s' (Publish q id) q).
             { cbn. repeat split; auto. apply (grown_new s s' q id Gr Hnone). }
             destruct below as [|g [|]]; [subst q0; exact T| |destruct g; destruct HP'].
             destruct g; try (destruct HP'; fail). destruct HP' as (-> & P1 & P2 & P3 & P4). subst q.
             split; [reflexivity|]. split; [exact P1|]. split; [exact P2|]. split; [|exact T].
             exact (eq_trans (grown_assoc s s' _ id q0 Gr P2) P3).
          -- specialize (G7 j u Hj). specialize (Hother j u N Hj). unfold owned in Hother. unfold place_ok in *.
             destruct (at_ u) as [|q1 l1]; [exact I|]. eapply stack_grown; eassumption.
        * intros j u Hj. apply put_nth in Hj. destruct Hj as [[<- ->]|[N Hj]]; [specialize (G8 _ t Hi)|specialize (G8 j u Hj)].
          all: eapply Forall_impl; [|exact G8]; intros e He; eapply answer_grown; [exact Gr|exact He].
        * intros j u Hj. apply put_nth in Hj. destruct Hj as [[<- ->]|[_ Hj]]; [|eauto].
          rewrite HH. unfold history. rewrite Ea. reflexivity.
        * rewrite put_length. exact G10.
      + (* Publish *)
        destruct Htop as (-> & Hv & Hid). cbn [fst snd].
        set (t' := give t q0 below id).
        assert (Ho : owned t = q :: owned t').
        { unfold t'. rewrite give_owned. unfold owned. rewrite Ea. cbn.
          destruct below as [|[] [|]]; cbn in HP' |- *; try tauto; try (destruct HP'; fail). }
        exists [], s. rewrite app_nil_r. destruct (flat_map_put owned ts i t t' Hi) as (l & r & E1 & E2).
        rewrite Ho in E1.
        assert (Hfresh : ~ In q (flat_map owned (put ts i t'))).
        { rewrite E2. pose proof (g_nodup _ _ _ _ G) as ND. cbn in ND. rewrite E1 in ND. cbn in ND.
          apply NoDup_remove_2 in ND. exact ND. }
        destruct G as [G1 G2 G3 G4 G5 G6 G7 G8 G9 G10]. cbn [fst snd] in *.
        split; cbn [fst snd reg guards]; auto.
        * intros q1. rewrite assoc_cons. destruct (qeqb q1 q); [discriminate|auto].
        * intros q1 id1. rewrite assoc_cons. destruct (qeqb q1 q) eqn:X; [|auto]. apply qeqb_spec in X. subst q1.
          intro H. injection H as <-. exact Hid.
        * intro q1. rewrite assoc_cons. destruct (qeqb q1 q) eqn:X.
          -- apply qeqb_spec in X. subst q1. split; [discriminate|]. intro H. contradiction.
          -- rewrite G5, E1, E2. cbn. rewrite !in_app_iff. cbn.
             assert (q <> q1) by (intros ->; rewrite qeqb_refl in X; discriminate). rewrite in_app_iff. tauto.
        * rewrite E2. rewrite E1 in G6. cbn in G6. apply NoDup_remove_1 in G6. exact G6.
        * intros j u Hj. apply put_nth in Hj. destruct Hj as [[<- ->]|[_ Hj]]; [|eauto].
          unfold t'. destruct below as [|[] [|]]; cbn in HP' |- *; try tauto; try (destruct HP'; fail).
          destruct HP' as (-> & P1 & P2 & P3 & _ & P4 & P5). repeat split; auto. unfold dec_ok.
          destruct (qeqb q0 (full_decay q0)) eqn:X; [apply qeqb_spec in X; contradiction|]. rewrite <- Hwhich, Hv. exact Hid.
        * intros j u Hj. apply put_nth in Hj. destruct Hj as [[<- ->]|[_ Hj]]; [|eauto].
          unfold t'. destruct below as [|[] [|]]; cbn in HP' |- *; try tauto; try (destruct HP'; fail); auto.
          apply Forall_app. split; [exact HA|]. constructor; [|constructor]. cbn.
          destruct HP' as (<- & P1 & P2). unfold answer_ok. cbn. rewrite P1. exact P2.
        * intros j u Hj. apply put_nth in Hj. destruct Hj as [[<- ->]|[_ Hj]]; [|eauto].
          rewrite HH. unfold history, t'. rewrite Ea. destruct below as [|[] [|]]; cbn in HP' |- *; try tauto; try (destruct HP'; fail); auto.
          rewrite map_app, <- app_assoc. reflexivity.
        * rewrite put_length. exact G10.
  Qed.

  Lemma turn_eq m ts i : turn nm (m, ts) i =
    match nth_error ts i with None => (m, ts) | Some t => (fst (step nm m t), put ts i (snd (step nm m t))) end.
  Proof. unfold turn. cbn [fst snd]. destruct (nth_error ts i) as [t|]; [|reflexivity]. destruct (step nm m t); reflexivity. Qed.

  Lemma good_exec ps sch h s c : good ps h s c -> exists h' s', good ps (h ++ h') s' (exec nm c sch).
  Proof.
    revert h s c. induction sch as [|i sch IH]; intros h s c G.
    - exists [], s. rewrite app_nil_r. exact G.
    - change (exec nm c (i :: sch)) with (exec nm (turn nm c i) sch). destruct c as [m ts]. rewrite turn_eq.
      destruct (nth_error ts i) as [t|] eqn:E; [|exact (IH h s _ G)].
      destruct (good_step _ _ _ _ _ _ _ G E) as (h1 & s1 & G1).
      destruct (IH _ _ _ G1) as (h2 & s2 & G2). exists (h1 ++ h2), s2. rewrite app_assoc. exact G2.
  Qed.

  Lemma good_always ps sch : exists h s, good ps h s (exec nm (start ps) sch).
  Proof. destruct (good_exec ps sch [] m0 _ (good_start ps)) as (h & s & H). exists h, s. exact H. Qed.

  Lemma exec_app c a b : exec nm c (a ++ b) = exec nm (exec nm c a) b.
  Proof. apply fold_left_app. Qed.

  (** An answer to metaTypeId is the sequential one. *)
  Lemma answer_seq ps h s c q x : good ps h s c -> answered c (Id q) x -> meta_id nm s q = Some (s, x).
  Proof.
    intros G (i & t & Hi & Hin). pose proof (g_answer _ _ _ _ G i t Hi) as A. rewrite Forall_forall in A.
    specialize (A _ Hin). unfold answer_ok in A. cbn in A. unfold meta_id. cbn [metaTypeId].
    destruct (is_void q); [subst x; reflexivity|]. rewrite A. reflexivity.
  Qed.

  (** ** Progress *)
  Definition frame_cost (f : frame) : nat :=
    match f with
    | Enter q => if qeqb q (full_decay q) then 3 else 6
    | Decayed _ | Registering _ _ => 2
    | Publish _ _ => 1
    end.

  Definition place_cost (p : place) : nat :=
    match p with Idle => 0 | Working _ l => list_sum (map frame_cost l) end.

  (** At most how many effective steps a thread has before it. *)
  Definition cost (t : thread) : nat := place_cost (at_ t) + 7 * List.length (todo t).

  Definition total (c : memory * list thread) : nat := list_sum (map cost (snd c)).

  Definition waits (m : memory) (t : thread) : Prop :=
    match at_ t with
    | Working _ (Enter q :: _) => is_void q = false /\ assoc qeqb q (guards m) = Some Running
    | _ => False
    end.

  Definition finished (t : thread) : Prop := at_ t = Idle /\ todo t = [].

  Lemma give_cost t q below id : match below with [] | [Decayed _] => True | _ => False end ->
    cost (give t q below id) = list_sum (map frame_cost below) + 7 * List.length (todo t).
  Proof. destruct below as [|[] [|]]; cbn; tauto || reflexivity. Qed.

  Lemma step_cost s m t : place_ok s (at_ t) ->
    (waits m t \/ finished t) /\ step nm m t = (m, t) \/ cost (snd (step nm m t)) < cost t.
  Proof.
    intro HP. unfold step, waits, finished, cost at 2. destruct (at_ t) as [|q0 stack] eqn:Ea.
    - destruct (todo t) as [|[q|n] rest] eqn:Et; [left; auto|right|right]; cbn [snd]; unfold cost; cbn.
      + destruct (qeqb q (full_decay q)); lia.
      + lia.
    - cbn in HP. destruct stack as [|f below]; [destruct HP|].
      assert (Hb : match below with [] | [Decayed _] => True | _ => False end).
      { destruct below as [|[] [|]]; cbn in HP; tauto. }
      destruct f as [q|q|q dec|q id].
      + destruct (is_void q) eqn:Ev.
        { right. cbn [snd]. rewrite give_cost by exact Hb. cbn [place_cost map list_sum frame_cost fold_right]. unfold list_sum.
          destruct (qeqb q (full_decay q)); lia. }
        destruct (assoc qeqb q (guards m)) as [[|id]|] eqn:Eg.
        * left. auto.
        * right. cbn [snd]. rewrite give_cost by exact Hb. cbn [place_cost map list_sum frame_cost fold_right]. unfold list_sum.
          destruct (qeqb q (full_decay q)); lia.
        * right. cbn [snd]. unfold cost. cbn [at_ ThreadModel.todo].
          destruct (qeqb q (full_decay q)) eqn:X; cbn [place_cost map list_sum frame_cost fold_right]; unfold list_sum; rewrite ?X.
          -- lia.
          -- cbn [fold_right frame_cost]. rewrite full_decay_idem, qeqb_refl. lia.
      + exfalso. destruct below as [|[] [|]]; cbn in HP; tauto.
      + right. destruct (register (reg m) (nm q) (info_of q) dec). unfold cost. cbn. lia.
      + right. cbn [snd]. rewrite give_cost by exact Hb. cbn. unfold list_sum. lia.
  Qed.

  (** The thread that owns a static being initialised is not waiting for ever: somebody can move. *)
  Lemma somebody_moves ps h s m ts : good ps h s (m, ts) -> ~ quiet (m, ts) ->
    exists i t, nth_error ts i = Some t /\ cost (snd (step nm m t)) < cost t.
  Proof.
    intros G NQ.
    assert (D : (exists i t, nth_error ts i = Some t /\ cost (snd (step nm m t)) < cost t) \/
                (forall i t, nth_error ts i = Some t -> waits m t \/ finished t)).
    { pose proof (g_place _ _ _ _ G) as HP. cbn [snd] in HP. clear - HP. induction ts as [|t ts IH].
      - right. intros [|i] t H; discriminate.
      - destruct IH as [(i & u & Hi & Hu)|H].
        + intros i u Hi. apply (HP (S i) u Hi).
        + left. exists (S i), u. auto.
        + destruct (step_cost s m t (HP 0 t eq_refl)) as [[W _]|C].
          * right. intros [|i] u Hi; [injection Hi as <-; exact W|exact (H i u Hi)].
          * left. exists 0, t. auto. }
    destruct D as [D|D]; [exact D|]. exfalso. apply NQ. intros i t Hi. cbn in Hi.
    destruct (D i t Hi) as [W|F]; [exfalso|exact F].
    (* a waiting thread waits for an owner *)
    assert (Owner : forall q, assoc qeqb q (guards m) = Some Running -> exists j u, nth_error ts j = Some u /\ In q (owned u)).
    { intros q H. apply (g_running _ _ _ _ G) in H. cbn in H. apply in_flat_map in H. destruct H as (u & Hu & Hq).
      apply In_nth_error in Hu. destruct Hu as [j Hj]. eauto. }
    (* and the owner waits for the decayed type *)
    assert (Chain : forall q j u, nth_error ts j = Some u -> In q (owned u) ->
              q <> full_decay q /\ assoc qeqb (full_decay q) (guards m) = Some Running).
    { intros q j u Hj Hq. pose proof (g_place _ _ _ _ G j u Hj) as HP.
      destruct (D j u Hj) as [W'|[F1 F2]]; [|unfold owned in Hq; rewrite F1 in Hq; destruct Hq].
      unfold waits in W'. unfold owned in Hq. unfold place_ok in HP. destruct (at_ u) as [|q0 stack]; [destruct Hq|].
      destruct stack as [|f below]; [destruct Hq|]. destruct f as [q1| | |]; try (destruct W'; fail).
      destruct below as [|g [|x below]]; cbn in Hq; [destruct Hq| |destruct g; destruct HP].
      destruct g; try (destruct HP; fail). cbn in Hq. destruct Hq as [->|[]]. destruct HP as (-> & P1 & P2 & P3 & P4). cbn in P4.
      subst q1. split; [exact P2|]. apply W'. }
    unfold waits in W. destruct (at_ t) as [|q0 [|[q| | |] below]]; try (destruct W; fail). destruct W as [_ W].
    destruct (Owner q W) as (j & u & Hj & Hu). destruct (Chain q j u Hj Hu) as [N W2].
    destruct (Owner _ W2) as (k & v & Hk & Hv). destruct (Chain _ k v Hk Hv) as [N2 _].
    apply N2. symmetry. apply full_decay_idem.
  Qed.

  Lemma total_put m ts i t t' m' : nth_error ts i = Some t -> total (m', put ts i t') + cost t = total (m, ts) + cost t'.
  Proof.
    unfold total. cbn [snd]. revert i. induction ts as [|x ts IH]; intros [|i] H; cbn in H; try discriminate.
    - injection H as ->. cbn. unfold list_sum. lia.
    - specialize (IH i H). cbn in *. unfold list_sum in *. lia.
  Qed.

  Lemma turn_total ps h s c i : good ps h s c -> turn nm c i = c \/ total (turn nm c i) < total c.
  Proof.
    intro G. destruct c as [m ts]. rewrite turn_eq. destruct (nth_error ts i) as [t|] eqn:E; [|auto].
    destruct (step_cost s m t (g_place _ _ _ _ G i t E)) as [[_ ->]|C]; cbn [fst snd].
    - left. f_equal. destruct (split_at ts i t E) as (l & r & -> & _ & ->). reflexivity.
    - right. pose proof (total_put m ts i t (snd (step nm m t)) (fst (step nm m t)) E). lia.
  Qed.

  Lemma exec_total ps h s sch c : good ps h s c -> total (exec nm c sch) <= total c.
  Proof.
    revert h s c. induction sch as [|i sch IH]; intros h s c G; [cbn; lia|].
    change (exec nm c (i :: sch)) with (exec nm (turn nm c i) sch).
    destruct (turn_total ps h s c i G) as [->|L]; [eapply IH; exact G|].
    destruct (good_exec ps [i] h s c G) as (h' & s' & G'). cbn in G'.
    specialize (IH _ _ _ G'). change (fold_left _ [] _) with (turn nm c i) in IH. lia.
  Qed.

  Lemma round_total ps h s l c : good ps h s c -> ~ quiet c -> round (List.length (snd c)) l ->
    total (exec nm c l) < total c.
  Proof.
    intros G NQ R. destruct c as [m ts]. destruct (somebody_moves _ _ _ _ _ G NQ) as (i & t & Hi & C).
    assert (Hin : In i l). { apply R. cbn. apply nth_error_Some. congruence. }
    clear R. revert Hin. induction l as [|j l IH]; [intros []|]. intro Hin.
    change (exec nm (m, ts) (j :: l)) with (exec nm (turn nm (m, ts) j) l).
    destruct (good_exec ps [j] h s _ G) as (h' & s' & G').
    change (exec nm (m, ts) [j]) with (turn nm (m, ts) j) in G'.
    destruct (turn_total ps h s (m, ts) j G) as [E|L].
    - rewrite E. destruct (Nat.eq_dec i j) as [<-|N].
      + exfalso. revert E. rewrite turn_eq, Hi. intro E. injection E as E1 E2.
        pose proof (total_put m ts i t (snd (step nm m t)) m Hi) as T. rewrite E2 in T. lia.
      + apply IH. destruct Hin as [->|Hin]; [congruence|exact Hin].
    - pose proof (exec_total ps _ _ l _ G'). lia.
  Qed.

  Lemma exec_length sch c : List.length (snd (exec nm c sch)) = List.length (snd c).
  Proof.
    revert c. induction sch as [|i sch IH]; intro c; [reflexivity|].
    change (exec nm c (i :: sch)) with (exec nm (turn nm c i) sch). rewrite IH. destruct c as [m ts]. rewrite turn_eq.
    destruct (nth_error ts i); [apply put_length|reflexivity].
  Qed.

  Lemma quiet_dec c : quiet c \/ ~ quiet c.
  Proof.
    destruct c as [m ts]. unfold quiet. cbn. induction ts as [|t ts [IH|IH]].
    - left. intros [|i] t H; discriminate.
    - assert (D : (at_ t = Idle /\ todo t = []) \/ ~ (at_ t = Idle /\ todo t = [])).
      { destruct (at_ t), (todo t); auto; right; intros [? ?]; discriminate. }
      destruct D as [D|D]; [left|right].
      + intros [|i] u H; [injection H as <-; exact D|exact (IH i u H)].
      + intro H. apply D. exact (H 0 t eq_refl).
    - right. intro H. apply IH. intros i u Hi. exact (H (S i) u Hi).
  Qed.

  Lemma quiet_stays ps h s c sch : good ps h s c -> quiet c -> exec nm c sch = c.
  Proof.
    intros G Q. induction sch as [|i sch IH]; [reflexivity|].
    change (exec nm c (i :: sch)) with (exec nm (turn nm c i) sch). replace (turn nm c i) with c; [exact IH|].
    destruct (turn_total ps h s c i G) as [E|L]; [auto|]. destruct c as [m ts]. rewrite turn_eq in L |- *.
    destruct (nth_error ts i) as [t|] eqn:E; [|reflexivity]. exfalso. destruct (Q i t E) as [F1 F2].
    pose proof (total_put m ts i t (snd (step nm m t)) (fst (step nm m t)) E) as T.
    unfold step in T, L. rewrite F1, F2 in T, L. cbn [fst snd] in T, L. lia.
  Qed.

  Lemma rounds ps h s rs c : good ps h s c -> Forall (round (List.length (snd c))) rs -> total c <= List.length rs ->
    quiet (exec nm c (List.concat rs)).
  Proof.
    revert h s c. induction rs as [|l rs IH]; intros h s c G R L.
    - cbn in *. destruct (quiet_dec c) as [Q|Q]; [exact Q|]. exfalso. destruct c as [m ts].
      destruct (somebody_moves _ _ _ _ _ G Q) as (i & t & Hi & C).
      pose proof (total_put m ts i t (snd (step nm m t)) m Hi). lia.
    - destruct (quiet_dec c) as [Q|Q]; [rewrite (quiet_stays _ _ _ _ _ G Q); exact Q|].
      inversion R as [|x y R1 R2]. subst. cbn [List.concat]. rewrite exec_app.
      destruct (good_exec ps l _ _ _ G) as (h' & s' & G'). eapply IH; [exact G'|rewrite exec_length; exact R2|].
      pose proof (round_total _ _ _ l _ G Q R1). cbn in L. lia.
  Qed.

  Lemma total_start ps : total (start ps) = 7 * list_sum (map (@List.length request) ps).
  Proof. unfold total. cbn [snd start]. induction ps as [|l ps IH]; [reflexivity|]. cbn in *. unfold list_sum in *. lia. Qed.
End Inv.

(** ** Converters *)
Definition ccurrent (p : cplace) : list crequest := match p with CIdle => [] | CAdd k fn _ => [CRegister k fn] end.
Definition chistory (t : cthread) : list crequest := map fst (c_got t) ++ ccurrent (c_at t) ++ c_todo t.

Definition succeeded (k : nat * nat) (e : crequest * canswer) : bool :=
  match e with (CRegister k' _, Added true) => keyb k k' | _ => false end.
Definition removed (k : nat * nat) (e : crequest * canswer) : bool :=
  match e with (CUnregister k', Removed) => keyb k k' | _ => false end.
Definition present (c : converters) (k : nat * nat) : nat := match assoc keyb k (cv_items c) with Some _ => 1 | None => 0 end.
Definition counted (p : crequest * canswer -> bool) (ts : list cthread) : nat := List.length (filter p (flat_map c_got ts)).

Lemma keyb_refl k : keyb k k = true.
Proof. apply keyb_spec. reflexivity. Qed.

Lemma assoc_In3 k (l : list ((nat * nat * nat) * functor)) f : assoc key3b k l = Some f -> In (k, f) l.
Proof.
  induction l as [|[k' v] l IH]; cbn; [discriminate|]. destruct (key3b k k') eqn:E; [|auto].
  apply key3b_spec in E. subst. intro H. injection H as ->. auto.
Qed.

Lemma assoc_In2 k (l : list ((nat * nat) * functor)) f : assoc keyb k l = Some f -> In (k, f) l.
Proof.
  induction l as [|[k' v] l IH]; cbn; [discriminate|]. destruct (keyb k k') eqn:E; [|auto].
  apply keyb_spec in E. subst. intro H. injection H as ->. auto.
Qed.

(** Whatever is stored was given to some registration of this pair. *)
Record cgood (ps : list (list crequest)) (c : converters * list cthread) : Prop := {
  cg_static : forall k n f, In ((k, n), f) (cv_static (fst c)) -> crequested ps (CRegister k f) /\ f_type f = n;
  cg_items : forall k f, In (k, f) (cv_items (fst c)) -> crequested ps (CRegister k f);
  cg_add : forall i t k fn f, nth_error (snd c) i = Some t -> c_at t = CAdd k fn f ->
    crequested ps (CRegister k f) /\ f_type f = f_type fn;
  cg_used : forall i t k f, nth_error (snd c) i = Some t -> In (CUse k, Used (Some f)) (c_got t) ->
    crequested ps (CRegister k f);
  cg_history : forall i t, nth_error (snd c) i = Some t -> nth_error ps i = Some (chistory t);
  cg_length : List.length (snd c) = List.length ps;
  cg_count : forall k, present (fst c) k <= counted (succeeded k) (snd c) /\
    counted (succeeded k) (snd c) <= counted (removed k) (snd c) + present (fst c) k
}.

Lemma counted_put p ts i t t' : nth_error ts i = Some t ->
  counted p (put ts i t') + List.length (filter p (c_got t)) = counted p ts + List.length (filter p (c_got t')).
Proof.
  intro H. destruct (flat_map_put c_got ts i t t' H) as (l & r & E1 & E2). unfold counted. rewrite E1, E2.
  rewrite !filter_app, !app_length. lia.
Qed.

Lemma conv_turn_eq c ts i : conv_turn (c, ts) i =
  match nth_error ts i with None => (c, ts) | Some t => (fst (conv_step c t), put ts i (snd (conv_step c t))) end.
Proof. unfold conv_turn. cbn [fst snd]. destruct (nth_error ts i) as [t|]; [|reflexivity]. destruct (conv_step c t); reflexivity. Qed.

Lemma requested_history ps c ts i t r : cgood ps (c, ts) -> nth_error ts i = Some t -> In r (chistory t) -> crequested ps r.
Proof.
  intros G Hi Hr. pose proof (cg_history _ _ G i t Hi) as H. exists (chistory t). split; [eapply nth_error_In; exact H|exact Hr].
Qed.

Lemma assoc_snoc k k' (l : list ((nat * nat) * functor)) f :
  assoc keyb k (l ++ [(k', f)]) = match assoc keyb k l with Some v => Some v | None => if keyb k k' then Some f else None end.
Proof. rewrite assoc_app. reflexivity. Qed.

Lemma in_erase k k' f l : In (k, f) (erase keyb k' l) -> In (k, f) (l : list ((nat * nat) * functor)).
Proof. unfold erase. rewrite filter_In. tauto. Qed.

Lemma cgood_step ps c ts i t : cgood ps (c, ts) -> nth_error ts i = Some t ->
  cgood ps (fst (conv_step c t), put ts i (snd (conv_step c t))).
Proof.
  intros G Hi. pose proof (fun r => requested_history ps c ts i t r G Hi) as HR.
  pose proof (cg_history _ _ G i t Hi) as HH. pose proof (fun p t' => counted_put p ts i t t' Hi) as HC.
  unfold chistory in HR, HH.
  assert (Hcommon : forall c' t',
    (forall k n f, In ((k, n), f) (cv_static c') -> crequested ps (CRegister k f) /\ f_type f = n) ->
    (forall k f, In (k, f) (cv_items c') -> crequested ps (CRegister k f)) ->
    (forall k fn f, c_at t' = CAdd k fn f -> crequested ps (CRegister k f) /\ f_type f = f_type fn) ->
    (forall k f, In (CUse k, Used (Some f)) (c_got t') -> crequested ps (CRegister k f)) ->
    chistory t' = chistory t ->
    (forall k, present c' k <= counted (succeeded k) (put ts i t') /\
      counted (succeeded k) (put ts i t') <= counted (removed k) (put ts i t') + present c' k) ->
    cgood ps (c', put ts i t')).
  { intros c' t' H1 H2 H3 H4 H5 H6. destruct G as [G1 G2 G3 G4 G5 G6 G7]. cbn [fst snd] in *. split; cbn [fst snd]; auto.
    - intros j u k fn f Hj. apply put_nth in Hj. destruct Hj as [[-> ->]|[_ Hj]]; eauto.
    - intros j u k f Hj. apply put_nth in Hj. destruct Hj as [[-> ->]|[_ Hj]]; eauto.
    - intros j u Hj. apply put_nth in Hj. destruct Hj as [[-> ->]|[_ Hj]]; [rewrite H5|]; eauto.
    - rewrite put_length. exact G6. }
  assert (Hused : forall k f, In (CUse k, Used (Some f)) (c_got t) -> crequested ps (CRegister k f)).
  { intros k f. exact (cg_used _ _ G i t k f Hi). }
  assert (Husednew : forall r a k f, In (CUse k, Used (Some f)) (c_got t ++ [(r, a)]) ->
            (r = CUse k -> a = Used (Some f) -> crequested ps (CRegister k f)) -> crequested ps (CRegister k f)).
  { intros r a k f H1 H2. apply in_app_iff in H1. destruct H1 as [H1|[H1|[]]]; [auto|]. injection H1 as -> ->. auto. }
  assert (Hsame : forall t', c_got t' = c_got t -> forall p, counted p (put ts i t') = counted p ts).
  { intros t' E p. specialize (HC p t'). rewrite E in HC. lia. }
  assert (Hnew : forall t' r a, c_got t' = c_got t ++ [(r, a)] -> forall p,
            counted p (put ts i t') = counted p ts + (if p (r, a) then 1 else 0)).
  { intros t' r a E p. specialize (HC p t'). rewrite E, filter_app, app_length in HC. cbn in HC.
    destruct (p (r, a)); cbn in HC; lia. }
  pose proof (cg_count _ _ G) as GC. cbn [fst snd] in GC.
  pose proof (cg_static _ _ G) as GS. pose proof (cg_items _ _ G) as GI. cbn [fst snd] in GS, GI.
  unfold conv_step. destruct (c_at t) as [|k fn f] eqn:Ea.
  - destruct (c_todo t) as [|[k fn|k|k] rest] eqn:Et.
    + cbn [fst snd]. apply Hcommon; auto; [congruence|]. intro k. rewrite !(Hsame t eq_refl). apply GC.
    + assert (HQ : crequested ps (CRegister k fn)). { apply HR. cbn. rewrite in_app_iff. cbn. auto. }
      destruct (assoc key3b (k, f_type fn) (cv_static c)) as [f|] eqn:Es; cbn [fst snd]; apply Hcommon; cbn; auto.
      * intros k1 fn1 f1 E. injection E as <- <- <-. apply GS. apply assoc_In3. exact Es.
      * unfold chistory. cbn. rewrite Ea, Et. reflexivity.
      * intro k1. rewrite !(Hsame (CThread (CAdd k fn f) rest (c_got t)) eq_refl). apply GC.
      * intros k1 n1 f1 H. apply in_app_iff in H. destruct H as [H|[H|[]]]; [auto|]. injection H as <- <- <-. auto.
      * intros k1 fn1 f1 E. injection E as <- <- <-. auto.
      * unfold chistory. cbn. rewrite Ea, Et. reflexivity.
      * intro k1. rewrite !(Hsame (CThread (CAdd k fn fn) rest (c_got t)) eq_refl). apply GC.
    + cbn [fst snd]. apply Hcommon; cbn; auto; try discriminate.
      * intros k1 f1 H. apply in_erase in H. auto.
      * intros k1 f1 H. apply (Husednew _ _ _ _ H). discriminate.
      * unfold chistory. cbn. rewrite Ea, Et, map_app, <- app_assoc. reflexivity.
      * intro k1. rewrite !(Hnew (CThread CIdle rest (c_got t ++ [(CUnregister k, Removed)])) _ _ eq_refl). cbn [succeeded removed].
        specialize (GC k1). unfold present in *. cbn [cv_items]. rewrite (assoc_erase keyb keyb_spec).
        destruct (keyb k1 k) eqn:E.
        -- apply keyb_spec in E. subst k1. rewrite keyb_refl. destruct (assoc keyb k (cv_items c)); lia.
        -- replace (keyb k k1) with false; [lia|]. symmetry. destruct (keyb k k1) eqn:X; [|reflexivity].
           apply keyb_spec in X. subst. rewrite keyb_refl in E. discriminate.
    + cbn [fst snd]. apply Hcommon; cbn; auto; try discriminate.
      * intros k1 f1 H. apply (Husednew _ _ _ _ H). intros E1 E2. injection E1 as ->. injection E2 as E2.
        apply GI. apply assoc_In2. exact E2.
      * unfold chistory. cbn. rewrite Ea, Et, map_app, <- app_assoc. reflexivity.
      * intro k1. rewrite !(Hnew (CThread CIdle rest (c_got t ++ [(CUse k, Used (assoc keyb k (cv_items c)))])) _ _ eq_refl).
        cbn [succeeded removed]. specialize (GC k1). lia.
  - destruct (cg_add _ _ G i t k fn f Hi Ea) as [HQ HT].
    destruct (assoc keyb k (cv_items c)) as [f'|] eqn:Es; cbn [fst snd]; apply Hcommon; cbn; auto; try discriminate.
    + intros k1 f1 H. apply (Husednew _ _ _ _ H). discriminate.
    + unfold chistory. cbn. rewrite Ea, map_app, <- app_assoc. reflexivity.
    + intro k1. rewrite !(Hnew (CThread CIdle (c_todo t) (c_got t ++ [(CRegister k fn, Added false)])) _ _ eq_refl).
      cbn [succeeded removed]. specialize (GC k1). lia.
    + intros k1 f1 H. apply in_app_iff in H. destruct H as [H|[H|[]]]; [auto|]. injection H as <- <-. exact HQ.
    + intros k1 f1 H. apply (Husednew _ _ _ _ H). discriminate.
    + unfold chistory. cbn. rewrite Ea, map_app, <- app_assoc. reflexivity.
    + intro k1. rewrite !(Hnew (CThread CIdle (c_todo t) (c_got t ++ [(CRegister k fn, Added true)])) _ _ eq_refl).
      cbn [succeeded removed]. specialize (GC k1). unfold present in *. cbn [cv_items]. rewrite assoc_snoc.
      destruct (keyb k1 k) eqn:E.
      * apply keyb_spec in E. subst k1. rewrite Es in *. lia.
      * destruct (assoc keyb k1 (cv_items c)); lia.
Qed.

Lemma cgood_start ps : cgood ps (conv_start ps).
Proof.
  assert (E : flat_map c_got (map (fun l => CThread CIdle l []) ps) = []) by (induction ps as [|l ps IH]; [reflexivity|exact IH]).
  split; cbn [conv_start fst snd]; try (cbn; tauto).
  - intros i t k fn f H. rewrite nth_error_map in H. destruct (nth_error ps i); [|discriminate]. injection H as <-. discriminate.
  - intros i t k f H. rewrite nth_error_map in H. destruct (nth_error ps i); [|discriminate]. injection H as <-. intros [].
  - intros i t H. rewrite nth_error_map in H. destruct (nth_error ps i); [|discriminate]. injection H as <-. reflexivity.
  - apply map_length.
  - intro k. unfold counted. rewrite E. cbn. lia.
Qed.

Lemma conv_inv (P : converters * list cthread -> Prop) ps :
  (forall c ts i t, cgood ps (c, ts) -> P (c, ts) -> nth_error ts i = Some t ->
     P (fst (conv_step c t), put ts i (snd (conv_step c t)))) ->
  forall sch c, cgood ps c -> P c -> cgood ps (conv_exec c sch) /\ P (conv_exec c sch).
Proof.
  intro H. induction sch as [|i sch IH]; intros c G HP; [auto|].
  change (conv_exec c (i :: sch)) with (conv_exec (conv_turn c i) sch). destruct c as [c ts]. rewrite conv_turn_eq.
  destruct (nth_error ts i) as [t|] eqn:E; [|auto]. apply IH; [apply cgood_step; assumption|eauto].
Qed.

Lemma cgood_always ps sch : cgood ps (conv_exec (conv_start ps) sch).
Proof. apply (conv_inv (fun _ => True) ps); auto. apply cgood_start. Qed.

(** While nobody unregisters [k]. *)
Record kept (k : nat * nat) (c : converters * list cthread) : Prop := {
  k_added : forall i t fn b, nth_error (snd c) i = Some t -> In (CRegister k fn, Added b) (c_got t) ->
    exists f, assoc keyb k (cv_items (fst c)) = Some f /\ (b = true -> f_type f = f_type fn);
  k_used : forall i t f, nth_error (snd c) i = Some t -> In (CUse k, Used (Some f)) (c_got t) ->
    assoc keyb k (cv_items (fst c)) = Some f
}.

Lemma kept_step ps k c ts i t : (forall l, In l ps -> ~ In (CUnregister k) l) ->
  cgood ps (c, ts) -> kept k (c, ts) -> nth_error ts i = Some t ->
  kept k (fst (conv_step c t), put ts i (snd (conv_step c t))).
Proof.
  intros NU G [K1 K2] Hi. cbn [fst snd] in *.
  assert (HU : ~ In (CUnregister k) (chistory t)). { apply NU. eapply nth_error_In. apply (cg_history _ _ G i t Hi). }
  (* the converter of k stays *)
  assert (Hstay : forall f, assoc keyb k (cv_items c) = Some f -> assoc keyb k (cv_items (fst (conv_step c t))) = Some f).
  { intros f Hf. unfold conv_step. destruct (c_at t) as [|k1 fn1 f1] eqn:Ea.
    - destruct (c_todo t) as [|[k1 fn1|k1|k1] rest] eqn:Et; auto.
      + destruct (assoc key3b _ _); auto.
      + cbn. rewrite (assoc_erase keyb keyb_spec). destruct (keyb k1 k) eqn:X; [|exact Hf]. apply keyb_spec in X. subst k1.
        exfalso. apply HU. unfold chistory. rewrite Et, !in_app_iff. cbn. auto.
    - destruct (assoc keyb k1 (cv_items c)); auto. cbn. rewrite assoc_snoc, Hf. reflexivity. }
  assert (Hnew : forall e, In e (c_got (snd (conv_step c t))) -> In e (c_got t) \/
     match e with
     | (CRegister k1 fn, Added b) => k1 = k -> exists f, assoc keyb k (cv_items (fst (conv_step c t))) = Some f /\ (b = true -> f_type f = f_type fn)
     | (CUse k1, Used (Some f)) => k1 = k -> assoc keyb k (cv_items (fst (conv_step c t))) = Some f
     | _ => True
     end).
  { intros e. unfold conv_step. destruct (c_at t) as [|k1 fn1 f1] eqn:Ea.
    - destruct (c_todo t) as [|[k1 fn1|k1|k1] rest] eqn:Et; cbn; auto.
      + destruct (assoc key3b _ _); cbn; auto.
      + intro H. apply in_app_iff in H. destruct H as [H|[<-|[]]]; auto.
      + intro H. apply in_app_iff in H. destruct H as [H|[<-|[]]]; auto. right.
        destruct (assoc keyb k1 (cv_items c)) as [f|] eqn:E; auto. intros ->. exact E.
    - destruct (cg_add _ _ G i t k1 fn1 f1 Hi Ea) as [_ HT].
      destruct (assoc keyb k1 (cv_items c)) as [f|] eqn:E; cbn; intro H; apply in_app_iff in H; destruct H as [H|[<-|[]]]; auto; right.
      + intros ->. exists f. split; [exact E|discriminate].
      + intros ->. exists f1. rewrite assoc_snoc, E, keyb_refl. auto. }
  split; cbn [fst snd].
  - intros j u fn b Hj Hin. apply put_nth in Hj. destruct Hj as [[-> ->]|[_ Hj]].
    + apply Hnew in Hin. destruct Hin as [Hin|Hin]; [|apply Hin; reflexivity].
      destruct (K1 _ _ _ _ Hi Hin) as (f & Hf & HT). exists f. split; [apply Hstay; exact Hf|exact HT].
    + destruct (K1 _ _ _ _ Hj Hin) as (f & Hf & HT). exists f. split; [apply Hstay; exact Hf|exact HT].
  - intros j u f Hj Hin. apply put_nth in Hj. destruct Hj as [[-> ->]|[_ Hj]].
    + apply Hnew in Hin. destruct Hin as [Hin|Hin]; [|apply Hin; reflexivity]. apply Hstay. eapply K2; eassumption.
    + apply Hstay. eapply K2; eassumption.
Qed.

Lemma kept_always ps k sch : (forall l, In l ps -> ~ In (CUnregister k) l) -> kept k (conv_exec (conv_start ps) sch).
Proof.
  intro NU. apply (conv_inv (kept k) ps).
  - intros c ts i t G K Hi. eapply kept_step; eassumption.
  - apply cgood_start.
  - split; cbn [conv_start fst snd].
    + intros i t fn b H. rewrite nth_error_map in H. destruct (nth_error ps i); [|discriminate]. injection H as <-. intros [].
    + intros i t f H. rewrite nth_error_map in H. destruct (nth_error ps i); [|discriminate]. injection H as <-. intros [].
Qed.

(** Each registration takes two steps, everything else one; nobody waits. *)
Definition ccost (t : cthread) : nat := (match c_at t with CIdle => 0 | CAdd _ _ _ => 1 end) + 2 * List.length (c_todo t).

Lemma cstep_cost c t : (c_at t = CIdle /\ c_todo t = []) \/ ccost (snd (conv_step c t)) < ccost t.
Proof.
  unfold conv_step, ccost. destruct (c_at t) eqn:Ea.
  - destruct (c_todo t) as [|[k fn|k|k] rest] eqn:Et; auto; right; cbn; try lia.
    destruct (assoc key3b (k, f_type fn) (cv_static c)); cbn; lia.
  - right. destruct (assoc keyb k (cv_items c)); cbn; lia.
Qed.
